(** Deadlines (C112). *)
From Verif Require Import SpecClock.

Lemma deadline_exact s T : 0 <= T <= 9223372036854 → deadlineAt s T = s + 1000000 * T.
Proof. intros H. unfold deadlineAt, NumNanosecondsInAMillisecond. rewrite int64_id; [done|lia]. Qed.
Lemma deadline_early s T : 9223372036854 < T < 2^63 → deadlineAt s T < s + 1000000 * T.
Proof.
  intros H. unfold deadlineAt, NumNanosecondsInAMillisecond. pose proof (int64_range (1000000 * T)). lia.
Qed.

Lemma rounds_late dl now arr es t : timedRounds dl now arr es t → now <= t ∧ (None ∈ es → dl <= t).
Proof.
  induction 1 as [|now arr e t left es t' Hr _ [IH1 IH2]].
  - split; [lia|]. intros H. by apply elem_of_nil in H.
  - destruct Hr; (split; [lia|]); intros [Hx|Hx]%elem_of_cons; try done; try lia; specialize (IH2 Hx); lia.
Qed.
Lemma prompt_is_rounds dl now arr es t : prompt_rounds dl now arr es t → timedRounds dl now arr es t.
Proof. induction 1; econstructor; eauto. Qed.
Lemma prompt_end dl now arr es t : prompt_rounds dl now arr es t → t <= Z.max now dl.
Proof.
  induction 1 as [|now arr e t left es t' Hr Hp _ IH]; [lia|].
  assert (t <= Z.max now dl).
  { destruct (Z.le_gt_cases t (Z.max now dl)) as [|Hgt]; [done|]. destruct (Hp (Z.max now dl)); [|lia]. destruct Hr; lia. }
  lia.
Qed.
(** the replies that arrive before the deadline *)
Lemma prompt_takes dl now arr es t : prompt_rounds dl now arr es t → now < dl → 
  ∀ k, (k <= length es)%nat → (k <= length arr)%nat → (∀ i a, (i < k)%nat → arr !! i = Some a → a.1 < dl) →
  take k es = Some <$> (take k arr).*2.
Proof.
  induction 1 as [|now arr e t left es t' Hr Hp H IH]; intros Hd k Hk1 Hk2 Ha.
  - cbn in Hk1. assert (k = 0)%nat as -> by lia. by rewrite !take_0.
  - destruct k as [|k]; [by rewrite !take_0|]. destruct arr as [|[a rp] arr]; [cbn in Hk2; lia|].
    pose proof (Ha 0%nat (a, rp) ltac:(lia) eq_refl) as Ha0. cbn in Ha0.
    assert (Ht : t < dl).
    { destruct (Z.lt_ge_cases t dl) as [|Hge]; [done|]. destruct (Hp (Z.max now a)) as [H1 H2]; [lia|].
      specialize (H2 _ eq_refl). cbn in H2. lia. }
    inversion Hr; subst; [|lia]. cbn. f_equal. apply IH; [done|cbn in *; lia..|].
    intros i b Hi Hb. apply (Ha (S i)); [lia|done].
Qed.
Lemma timeout_all countOnly rps : TimeOut countOnly (Some <$> rps) = (NotTimeOut countOnly rps, false).
Proof.
  unfold TimeOut, NotTimeOut. generalize (@nil ScoredDoc, 0). induction rps as [|r rps IH]; intros st; [done|]. cbn. apply IH.
Qed.
Lemma timeout_flag countOnly es : (TimeOut countOnly es).2 = true ↔ None ∈ es.
Proof.
  unfold TimeOut. assert (H : ∀ st, (foldl (λ st e, match e with Some rp => (collect countOnly st.1 rp, st.2) | None => (st.1, true) end) st es).2 = true ↔ st.2 = true ∨ None ∈ es).
  { induction es as [|[rp|] es IH]; intros st; cbn [foldl]; [rewrite elem_of_nil; tauto|..]; rewrite IH, elem_of_cons; cbn; naive_solver. }
  rewrite H. cbn. naive_solver.
Qed.
Lemma finish_flag sortBy req out num tmo resp : finish sortBy req out num tmo = Some resp → rsTimeout resp = tmo.
Proof.
  unfold finish. destruct (rqCountOnly req); [by intros [= <-]|]. destruct (rqOrderless req); [by intros [= <-]|]. cbv zeta.
  destruct (maxRankOutput _ _). destruct (zslice _ _ _); [|done]. cbn [mbind option_bind]. by intros [= <-].
Qed.
Lemma ranks_flag sortBy req es resp : 0 < rqTimeout req → Ranks sortBy req es = Some resp → rsTimeout resp = true ↔ None ∈ es.
Proof.
  intros HT. unfold Ranks. destruct (Z.leb_spec (rqTimeout req) 0); [lia|]. rewrite <- (timeout_flag (rqCountOnly req)).
  destruct (TimeOut (rqCountOnly req) es) as [[out num] tmo]. intros ->%finish_flag. done.
Qed.
Lemma ranks_timed_out sortBy req dl now arr es t resp : 0 < rqTimeout req → timedRounds dl now arr es t → Ranks sortBy req es = Some resp →
  rsTimeout resp = true → dl <= t.
Proof. intros HT Hr HR Hf. apply (ranks_flag _ _ _ _ HT HR) in Hf. by apply (rounds_late dl now arr es t Hr). Qed.
Lemma ranks_untimed sortBy req rps T : 
  Ranks sortBy req (Some <$> rps) = Ranks sortBy (mkReq (rqTokens req) (rqLabels req) (rqLogic req) (rqDocIds req) (rqOpts req) T (rqCountOnly req) (rqOrderless req)) (Some <$> rps).
Proof.
  assert (E : omap id (Some <$> rps) = rps) by (induction rps as [|r rps IH]; [done|]; cbn; by f_equal).
  unfold Ranks. cbn [rqTimeout rqCountOnly]. rewrite !timeout_all, !E.
  destruct (NotTimeOut (rqCountOnly req) rps) as [out num]. by destruct (_ <=? _), (_ <=? _).
Qed.
Lemma prompt_all dl now arr es t : prompt_rounds dl now arr es t → length es = length arr → now < dl → (∀ a, a ∈ arr → a.1 < dl) →
  es = Some <$> arr.*2.
Proof.
  intros Hp Hl Hd Ha. pose proof (prompt_takes dl now arr es t Hp Hd (length arr)) as H.
  rewrite <- (take_ge es (length arr)) by lia. rewrite H, take_ge; [done|lia..|]. intros i a _ Hi. apply Ha. by eapply elem_of_list_lookup_2.
Qed.
(** the replies taken are the first ones that arrive, and they have arrived *)
Lemma rounds_taken dl now arr es t : timedRounds dl now arr es t →
  ∃ k, omap id es = (take k arr).*2 ∧ (k <= length arr)%nat ∧ ∀ a, a ∈ take k arr → a.1 <= t.
Proof.
  induction 1 as [|now arr e t left es t' Hr H (k & IH1 & IH2 & IH3)].
  - exists 0%nat. split; [done|]. split; [lia|]. intros a Ha. by apply elem_of_nil in Ha.
  - pose proof (proj1 (rounds_late _ _ _ _ _ H)) as Ht. destruct Hr as [now t a rp rest H1 H2|now t arr H1 H2].
    + exists (S k). cbn. split; [by f_equal|]. split; [lia|]. intros b [->|Hb]%elem_of_cons; [cbn; lia|auto].
    + exists k. done.
Qed.
