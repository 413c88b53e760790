(** Executions of the engine with UseStore, seen from the pipeline and from the store. *)
From Verif Require Import ModelWhole SpecPipe SpecStore SpecWhole ProofTopK ProofRoute ProofPipe ProofStoreRun.

Section Whole.
  Context (murmur : string → Z) (n : Z) (only reqsFirst : bool) (cap : chan → nat).
  Context (accepts : string → string → bool) (encode : DocData → option string) (nS : Z) (reqsFirst2 : bool).
  Notation callA := (callActs n reqsFirst).
  Notation wcallA := (wcallActs n reqsFirst).
  Notation pst := (pstep murmur n only reqsFirst cap).
  Notation pSt := (procStep murmur n only reqsFirst cap).
  Notation loop1 := (flushLoop1 reqsFirst).
  Notation wloop1 := (wLoop1 reqsFirst).
  Notation wmv := (wmoveStep murmur n only reqsFirst cap accepts encode nS reqsFirst2).
  Notation wstep := (wholeStep murmur n only reqsFirst cap accepts encode nS reqsFirst2).
  Notation wreach := (whole_reach murmur n only reqsFirst cap accepts encode nS reqsFirst2).
  Notation preach := (pipe_reach murmur n only reqsFirst cap).
  Notation sreach := (store_reach accepts encode murmur nS).
  Notation smv := (smoveStep accepts encode murmur nS).

  (** * Actions of a client, seen from the pipeline *)
  Definition pact (a : wact) : list act := match a with WPipe a => [a] | WLoop => [FLoop1] | _ => [] end.
  Definition pacts (l : list wact) : list act := mjoin (pact <$> l).
  Lemma pacts_app l1 l2 : pacts (l1 ++ l2) = pacts l1 ++ pacts l2.
  Proof. unfold pacts. by rewrite fmap_app, join_app. Qed.
  Lemma pacts_pipe l : pacts (WPipe <$> l) = l.
  Proof. induction l as [|a l IH]; [done|]. unfold pacts in *. by rewrite !fmap_cons, mjoin_cons, IH. Qed.
  Lemma pacts_loop1 : pacts wloop1 = loop1.
  Proof. unfold wLoop1, waitActs, flushLoop1. by destruct reqsFirst. Qed.
  Lemma pacts_call c : pacts (wcallA c) = callA (pipeCall c).
  Proof.
    destruct c as [d data f|id f|]; cbn [wcallActs]; rewrite pacts_app, ?pacts_pipe.
    - destruct (seqb _ _); by rewrite app_nil_r.
    - destruct (seqb _ _); by rewrite app_nil_r.
    - by rewrite pacts_loop1.
  Qed.
  Definition plainw (a : wact) : Prop := match a with WRead | WCmp | WLoop => False | _ => True end.
  Definition wtail : list wact := WPipe <$> indexActs zeroCall "0" true ++ flushLoop2.
  Lemma plain_pipe l : Forall plainw (WPipe <$> l).
  Proof. by apply Forall_fmap, Forall_true. Qed.
  Lemma call_split c : (c = WFlush ∧ wcallA c = wloop1 ++ wtail) ∨ Forall plainw (wcallA c).
  Proof.
    destruct c as [d data f|id f|]; [right|right|by left]; cbn [wcallActs]; apply Forall_app; (split; [apply plain_pipe|]);
      destruct (seqb _ _); by repeat constructor.
  Qed.

  (** Whether the register will be used before it is set *)
  Fixpoint regLive (l : list act) : bool :=
    match l with
    | [] => false
    | FCmp _ :: _ => true
    | FRead _ :: _ => false
    | _ :: l => regLive l
    end.
  Lemma live_loop1 l : regLive (loop1 ++ l) = false.
  Proof. unfold flushLoop1. by destruct reqsFirst. Qed.

  (** Position of a client: the rest of the first loop of Flush, then [r]. *)
  Definition posn (c : wclient) (l r : list wact) : Prop :=
    wActs c = l ++ r ∧ l `suffix_of` wloop1 ∧ Forall plainw r.
  (** In the first loop, the pipeline client either keeps pace, or (if [b]) has not started
      the present round. *)
  Definition prel (b : bool) (c : wclient) (p : proc) : Prop :=
    ∃ l r, posn c l r ∧ pChan p = None ∧ pCalls p = pipeProg (wCalls c) ∧
      ((b = true ∧ l ≠ [] ∧ pActs p = loop1 ++ pacts r ∧ pOk p = true) ∨
       ((b = false ∨ l = []) ∧ pActs p = pacts (l ++ r) ∧ pOk p = wOk c ∧ (regLive (pActs p) = true → pReg p = wReg c))).

  Lemma loop_suffix a l : a :: l `suffix_of` wloop1 →
    match a with
    | WPipe a => l ≠ [] ∧ match a with FReset | FRead _ | FCmp _ => True | _ => False end
    | WRead => l = [WCmp; WLoop] | WCmp => l = [WLoop] | WLoop => l = []
    | _ => False
    end.
  Proof.
    intros [p E]. unfold wLoop1, waitActs in E.
    destruct reqsFirst; cbn in E;
      repeat (destruct p as [|? p]; cbn in E; [injection E as <- <-; done|injection E as _ E]); by destruct p.
  Qed.
  Lemma suffix_tl {A} (a : A) l1 l2 : a :: l1 `suffix_of` l2 → l1 `suffix_of` l2.
  Proof. intros [l ->]. exists (l ++ [a]). by rewrite <- app_assoc. Qed.

  Lemma loop_not_plain a l r : a :: l `suffix_of` wloop1 → ¬ Forall plainw (a :: l ++ r).
  Proof.
    intros [pre Hpre] HF. assert (Hl : last (a :: l) = Some WLoop).
    { assert (last (pre ++ a :: l) = Some WLoop) as H by (rewrite <- Hpre; by destruct reqsFirst). by rewrite last_app_cons in H. }
    apply last_Some_elem_of in Hl. rewrite Forall_forall in HF. apply (HF WLoop).
    change (a :: l ++ r) with ((a :: l) ++ r). apply elem_of_app. by left.
  Qed.

  (** One action is done in the same way before other actions. *)
  Lemma step_frame calls calls' a rest reg reg' ok net log p net' log' :
    pSt (mkProc None calls [a] reg ok) net log = Some (p, net', log') →
    (match a with FCmp _ => reg' = reg | _ => True end) →
    ∃ p', pSt (mkProc None calls' (a :: rest) reg' ok) net log = Some (p', net', log') ∧
      pChan p' = None ∧ pCalls p' = calls' ∧ pActs p' = pActs p ++ rest ∧ pOk p' = pOk p ∧
      ((∃ c, a = FRead c) ∨ reg' = reg → pReg p' = pReg p) ∧
      (regLive (pActs p ++ rest) = true → (∃ c, a = FRead c) ∨ regLive (a :: rest) = true).
  Proof.
    unfold procStep. cbn [pActs pChan pCalls pReg pOk]. intros H Hreg.
    destruct a as [e|ch m| |c|c| |]; cbn zeta in *; [|destruct (decide _); [|done]|..]; injection H as <- <- <-; eexists; (split; [done|]); cbn [pActs pChan pCalls pReg pOk];
      (split; [done|]); (split; [done|]).
    - do 2 (split; [done|]). split; [by intros [[? ?]|?]|by right].
    - do 2 (split; [done|]). split; [by intros [[? ?]|?]|by right].
    - do 2 (split; [done|]). split; [by intros [[? ?]|?]|by right].
    - do 2 (split; [done|]). split; [done|]. left. by eexists.
    - split; [done|]. split; [by rewrite Hreg|]. split; [done|]. by right.
    - split; [destruct ok; by rewrite ?app_nil_r|]. split; [done|]. split; [by intros [[? ?]|?]|].
      destruct ok; [by right|]. rewrite app_nil_r, live_loop1. done.
    - split; [by destruct ok|]. split; [done|]. split; [by intros [[? ?]|?]|]. destruct ok; [by right|done].
  Qed.

  Notation pipeSt := (pipeStep murmur n only reqsFirst cap).
  (** The state of the pipeline alone: started in [start]; [PR]: processes that have ended *)
  Definition pinv (s : wstate) (b : nat → bool) (start : pstate) (PR : list proc) : Prop :=
    ∃ q P, rtc pipeSt start q ∧ sNet q = wNet s ∧ sLog q = wLog s ∧ sProcs q = P ++ PR ++ wProcs s ∧
      length P = length (wClients s) ∧ ∀ k c p, wClients s !! k = Some c → P !! k = Some p → prel (b k) c p.

  Lemma posn_nil_inv c l r : posn c l r → wActs c = [] → l = [] ∧ r = [].
  Proof. intros [E _] H. rewrite E in H. by apply app_eq_nil in H. Qed.

  Definition fupd (b : nat → bool) (k : nat) (v : bool) (j : nat) : bool := if decide (j = k) then v else b j.
  Lemma fupd_eq b k v : fupd b k v k = v.
  Proof. unfold fupd. by rewrite decide_True. Qed.
  Lemma fupd_ne b k v j : j ≠ k → fupd b k v j = b j.
  Proof. unfold fupd. intros. by rewrite decide_False. Qed.

  (** The others stay in their relation when client [k] is replaced. *)
  Lemma prel_insert (b b' : nat → bool) (cl : list wclient) (P : list proc) k c' p' : length P = length cl →
    (∀ j c p, cl !! j = Some c → P !! j = Some p → prel (b' j) c p) → (∀ j, j ≠ k → b' j = b j) → prel (b k) c' p' →
    ∀ j c p, <[k := c']> cl !! j = Some c → <[k := p']> P !! j = Some p → prel (b j) c p.
  Proof.
    intros Hl H Hb Hk j c p Hc Hp. destruct (decide (j = k)) as [->|Hne].
    - rewrite list_lookup_insert in Hc by (by rewrite <- (insert_length cl k c'); eapply lookup_lt_Some).
      rewrite list_lookup_insert in Hp by (by rewrite <- (insert_length P k p'); eapply lookup_lt_Some). congruence.
    - rewrite list_lookup_insert_ne in Hc by done. rewrite list_lookup_insert_ne in Hp by done. rewrite <- Hb by done. eauto.
  Qed.

  Lemma pinv_client k s s' start PR : (∀ b, pinv s b start PR) → wmv (WMClient k) s = Some s' → ∀ b, pinv s' b start PR.
  Proof.
    intros HI Hs b. destruct s as [cl ps net log w dl sl]. cbn [wmoveStep] in Hs. unfold wclientStep in Hs. cbn [wClients wProcs wNet wLog wWork wDels wSLog] in Hs.
    destruct (cl !! k) as [c|] eqn:Hc; [|done]. cbn [mbind option_bind] in Hs.
    (* the pipeline does nothing *)
    assert (Stay : ∀ b' c' w' dl' sl', (∀ j, j ≠ k → b' j = b j) → (∀ p, prel (b' k) c p → prel (b k) c' p) →
      pinv (mkWS (<[k := c']> cl) ps net log w' dl' sl') b start PR).
    { intros b' c' w' dl' sl' Hb Hp. destruct (HI b') as (q & P & Hr & E1 & E2 & E3 & El & HF). cbn [wClients wProcs wNet wLog] in *.
      assert (Hlt : (k < length P)%nat) by (rewrite El; by eapply lookup_lt_Some).
      destruct (lookup_lt_is_Some_2 P k Hlt) as [p Hpk].
      exists q, P. cbn [wClients wProcs wNet wLog]. repeat (split; [done|]). split; [by rewrite insert_length|].
      rewrite <- (list_insert_id P k p Hpk). eapply (prel_insert b b'); [done|done|done|]. apply Hp. by eapply HF. }
    (* the pipeline client moves *)
    assert (Move : ∀ b' c' net' log' w' dl' sl', (∀ j, j ≠ k → b' j = b j) →
      (∀ p, prel (b' k) c p → ∃ p', pSt p net log = Some (p', net', log') ∧ prel (b k) c' p') →
      pinv (mkWS (<[k := c']> cl) ps net' log' w' dl' sl') b start PR).
    { intros b' c' net' log' w' dl' sl' Hb Hp. destruct (HI b') as (q & P & Hr & E1 & E2 & E3 & El & HF). cbn [wClients wProcs wNet wLog] in *.
      assert (Hlt : (k < length P)%nat) by (rewrite El; by eapply lookup_lt_Some).
      destruct (lookup_lt_is_Some_2 P k Hlt) as [p Hpk].
      destruct (Hp p) as (p' & Hst & Hrel); [by eapply HF|].
      exists (mkPState (<[k := p']> (sProcs q)) net' log'), (<[k := p']> P). cbn [wClients wProcs wNet wLog sNet sLog sProcs].
      split; [|split; [done|split; [done|split; [|split]]]].
      - eapply rtc_r; [exact Hr|]. exists k. unfold pstep. rewrite E3, lookup_app_l by done. rewrite Hpk. cbn [mbind option_bind].
        by rewrite E1, E2, Hst.
      - by rewrite E3, insert_app_l.
      - by rewrite !insert_length.
      - by eapply (prel_insert b b'). }
    destruct (wActs c) as [|a acts] eqn:Ha.
    - (* next call *)
      destruct (wCalls c) as [|call cs] eqn:Hcs; [done|]. injection Hs as <-. apply (Move b); [done|].
      intros p (l & r & Hpos & H1 & H2 & H3). destruct (posn_nil_inv _ _ _ Hpos Ha) as [-> ->].
      destruct H3 as [(_ & ? & _)|(_ & H3 & H4 & _)]; [done|].
      eexists. split.
      { unfold procStep. rewrite H3. cbn [app]. rewrite H1, H2, Hcs. reflexivity. }
      destruct (call_split call) as [[-> E]|HF].
      + exists wloop1, wtail. split; [split; [done|split; [done|apply plain_pipe]]|]. cbn [pChan pCalls pActs pOk pReg wCalls wOk wReg].
        repeat (split; [done|]).
        assert (Ec : callA (pipeCall WFlush) = loop1 ++ pacts wtail) by (unfold wtail; by rewrite pacts_pipe).
        rewrite Ec. destruct (b k).
        * left. split; [done|]. split; [by destruct reqsFirst|]. by split.
        * right. split; [by left|]. rewrite pacts_app, pacts_loop1. by repeat (split; [done|]).
      + exists [], (wcallA call). split; [split; [done|split; [apply suffix_nil|done]]|]. cbn [pChan pCalls pActs pOk pReg wCalls wOk wReg].
        repeat (split; [done|]). right. split; [by right|]. cbn [app]. rewrite pacts_call. by repeat (split; [done|]).
    - destruct a as [a|id data|id| | |].
      + (* an action of the pipeline *)
        destruct (pSt _ net log) as [[[p0 net'] log']|] eqn:Hst; [|done]. cbn [mbind option_bind] in Hs. injection Hs as <-.
        assert (Hsync : ∀ l r p, posn c l r → (l = [] ∨ b k = false) → pChan p = None → pCalls p = pipeProg (wCalls c) →
          pActs p = pacts (l ++ r) → pOk p = wOk c → (regLive (pActs p) = true → pReg p = wReg c) →
          ∃ p', pSt p net log = Some (p', net', log') ∧
            prel (b k) (mkWC (wCalls c) ((WPipe <$> pActs p0) ++ acts) (pReg p0) (pOk p0) (wReg2 c) (wOk2 c)) p').
        { intros l r [ch calls pa reg ok] (E & Hsuf & HF) Hl H1 H2 H3 H4 H5. cbn [pChan pCalls pActs pOk pReg] in *. subst ch calls ok.
          rewrite Ha in E. rewrite <- E in H3. change (pacts (WPipe a :: acts)) with (a :: pacts acts) in H3. subst pa.
          destruct (step_frame _ (pipeProg (wCalls c)) a (pacts acts) _ reg (wOk c) net log p0 net' log' Hst) as (p' & Hp' & F1 & F2 & F3 & F4 & F5 & F6).
          { destruct a; try done. by apply H5. }
          exists p'. split; [done|].
          assert (Hreg : regLive (pActs p') = true → pReg p' = pReg p0).
          { rewrite F3. intros Hlive. apply F5. destruct (F6 Hlive) as [?|?]; [by left|right]. by apply H5. }
          destruct l as [|a0 l].
          - cbn [app] in E. subst r. apply Forall_cons in HF as [_ HF].
            exists [], ((WPipe <$> pActs p0) ++ acts). split; [split; [done|split; [apply suffix_nil|apply Forall_app; split; [apply plain_pipe|done]]]|].
            cbn [wCalls wOk wReg]. repeat (split; [done|]). right. split; [by right|]. cbn [app]. rewrite pacts_app, pacts_pipe. by repeat (split; [done|]).
          - injection E as <- ->. destruct (loop_suffix _ _ Hsuf) as [Hne Hf]. destruct Hl as [?|Hb]; [done|].
            assert (E0 : pActs p0 = []).
            { unfold procStep in Hst. cbn [pActs] in Hst. destruct a; try done; injection Hst as <- _ _; done. }
            rewrite E0 in *. exists l, r. split; [split; [done|split; [by eapply suffix_tl|done]]|].
            cbn [wCalls wOk wReg]. repeat (split; [done|]). right. split; [by left|]. by repeat (split; [done|]). }
        assert (Hcase : ∃ l r, wActs c = l ++ r ∧ l `suffix_of` wloop1 ∧ Forall plainw r).
        { destruct (HI b) as (q & P & _ & _ & _ & _ & El & HF). cbn [wClients] in *.
          assert (Hlt : (k < length P)%nat) by (rewrite El; by eapply lookup_lt_Some).
          destruct (lookup_lt_is_Some_2 P k Hlt) as [p Hpk]. destruct (HF k c p Hc Hpk) as (l & r & Hpos & _). by exists l, r. }
        destruct (b k) eqn:Hb.
        * (* in the first loop nothing outside happens *)
          destruct Hcase as (l0 & r0 & E0 & Hs0 & HF0). destruct l0 as [|a0 l0].
          -- apply (Move b); [done|]. rewrite Hb. intros p (l & r & Hpos & H1 & H2 & H3). 
             assert (l = []) as ->.
             { destruct l as [|x l]; [done|]. exfalso. destruct Hpos as (E & Hsuf & _). rewrite E0 in E. cbn [app] in E.
               subst r0. by apply (loop_not_plain _ _ r Hsuf). }
             destruct H3 as [(_ & ? & _)|(_ & H3 & H4 & H5)]; [done|]. eapply (Hsync []); eauto.
          -- rewrite Ha in E0. injection E0 as <- ->. destruct (loop_suffix _ _ Hs0) as [Hne Hf].
             assert (net' = net ∧ log' = log ∧ pActs p0 = []) as (-> & -> & E0).
             { unfold procStep in Hst. cbn [pActs] in Hst. destruct a; try done; injection Hst as <- <- <-; done. }
             apply (Stay b); [done|]. rewrite Hb. intros p (l & r & Hpos & H1 & H2 & H3).
             destruct H3 as [(_ & Hl & H3 & H4)|(Hl & _)].
             ++ destruct Hpos as (E & Hsuf & HF). rewrite Ha in E. destruct l as [|x l]; [done|]. injection E as <- E.
                destruct (loop_suffix _ _ Hsuf) as [Hne' _].
                exists l, r. split; [split; [by rewrite E0|split; [by eapply suffix_tl|done]]|]. cbn [wCalls]. repeat (split; [done|]). by left.
             ++ destruct Hl as [?| ->]; [done|]. exfalso. destruct Hpos as (E & _ & HF). cbn [app] in E. rewrite Ha in E. subst r.
                by apply (loop_not_plain _ _ r0 Hs0).
        * apply (Move b); [done|]. rewrite Hb. intros p (l & r & Hpos & H1 & H2 & H3).
          destruct H3 as [(? & _)|(_ & H3 & H4 & H5)]; [done|]. eapply Hsync; eauto.
      + destruct (w !! _) as [[]|] eqn:Ew; try done. injection Hs as <-. apply (Stay b); [done|].
        intros p (l & r & (E & Hsuf & HF) & H1 & H2 & H3). rewrite Ha in E. destruct l as [|x l].
        * cbn [app] in E. subst r. apply Forall_cons in HF as [_ HF]. destruct H3 as [(_ & ? & _)|(_ & H3 & H4 & H5)]; [done|].
          exists [], acts. split; [split; [done|split; [apply suffix_nil|done]]|]. repeat (split; [done|]). right. split; [by right|]. done.
        * injection E as <- E. by apply loop_suffix in Hsuf.
      + injection Hs as <-. apply (Stay b); [done|].
        intros p (l & r & (E & Hsuf & HF) & H1 & H2 & H3). rewrite Ha in E. destruct l as [|x l].
        * cbn [app] in E. subst r. apply Forall_cons in HF as [_ HF]. destruct H3 as [(_ & ? & _)|(_ & H3 & H4 & H5)]; [done|].
          exists [], acts. split; [split; [done|split; [apply suffix_nil|done]]|]. repeat (split; [done|]). right. split; [by right|]. done.
        * injection E as <- E. by apply loop_suffix in Hsuf.
      + injection Hs as <-. apply (Stay b); [done|].
        intros p (l & r & (E & Hsuf & HF) & H1 & H2 & H3). rewrite Ha in E. destruct l as [|x l].
        * cbn [app] in E. subst r. by apply Forall_cons in HF as [? HF].
        * injection E as <- E. pose proof (loop_suffix _ _ Hsuf) as Hl. cbn in Hl. exists l, r.
          split; [split; [done|split; [by eapply suffix_tl|done]]|]. repeat (split; [done|]).
          destruct H3 as [(? & _ & H3)|(Hb & H3 & H4 & H5)]; [left; by subst l|right]. split; [destruct Hb; [by left|done]|]. done.
      + injection Hs as <-. apply (Stay b); [done|].
        intros p (l & r & (E & Hsuf & HF) & H1 & H2 & H3). rewrite Ha in E. destruct l as [|x l].
        * cbn [app] in E. subst r. by apply Forall_cons in HF as [? HF].
        * injection E as <- E. pose proof (loop_suffix _ _ Hsuf) as Hl. cbn in Hl. exists l, r.
          split; [split; [done|split; [by eapply suffix_tl|done]]|]. repeat (split; [done|]).
          destruct H3 as [(? & _ & H3)|(Hb & H3 & H4 & H5)]; [left; by subst l|right]. split; [destruct Hb; [by left|done]|]. done.
      + (* the end of a round *)
        injection Hs as <-. destruct (wOk c && wOk2 c) eqn:Hok.
        * apply andb_true_iff in Hok as [Hok _]. apply (Move (fupd b k false)); [apply fupd_ne|]. rewrite fupd_eq.
          intros p (l & r & (E & Hsuf & HF) & H1 & H2 & H3). rewrite Ha in E. destruct l as [|x l].
          { cbn [app] in E. subst r. by apply Forall_cons in HF as [? HF]. }
          injection E as <- E. pose proof (loop_suffix _ _ Hsuf) as Hl. cbn in Hl. subst l. cbn [app] in E. subst r.
          destruct H3 as [(? & _)|(_ & H3 & H4 & H5)]; [done|]. change (pacts ([WLoop] ++ acts)) with (FLoop1 :: pacts acts) in H3.
          eexists. split; [unfold procStep; rewrite H3; reflexivity|].
          exists [], acts. split; [split; [done|split; [apply suffix_nil|done]]|]. cbn [pChan pCalls pActs pOk pReg wCalls wOk wReg].
          repeat (split; [done|]). right. split; [by right|]. rewrite H4, Hok. repeat (split; [done|]). intros Hlive. apply H5.
          rewrite H3. done.
        * apply (Stay (fupd b k true)); [apply fupd_ne|]. rewrite fupd_eq.
          intros p (l & r & (E & Hsuf & HF) & H1 & H2 & H3). rewrite Ha in E. destruct l as [|x l].
          { cbn [app] in E. subst r. by apply Forall_cons in HF as [? HF]. }
          injection E as <- E. pose proof (loop_suffix _ _ Hsuf) as Hl. cbn in Hl. subst l. cbn [app] in E. subst r.
          destruct H3 as [(_ & _ & H3 & H4)|([?|?] & _)]; [|done|done].
          exists wloop1, acts. split; [split; [done|split; [done|done]]|]. cbn [wCalls wOk wReg]. repeat (split; [done|]).
          destruct (b k).
          -- left. split; [done|]. split; [by destruct reqsFirst|]. by split.
          -- right. split; [by left|]. rewrite pacts_app, pacts_loop1. split; [done|]. split; [done|]. by rewrite H3, live_loop1.
  Qed.

  Lemma pinv_step s s' start PR : wstep s s' → (∀ b, pinv s b start PR) → ∀ b, pinv s' b start PR.
  Proof.
    intros [[k|k|j|k] Hs] HI b.
    - by eapply pinv_client.
    - cbn [wmoveStep] in Hs. unfold wprocStep in Hs. destruct (wProcs s !! k) as [p|] eqn:Hp; [|done]. cbn [mbind option_bind] in Hs.
      destruct (pSt p (wNet s) (wLog s)) as [[[p' net'] log']|] eqn:Hst; [|done]. cbn [mbind option_bind] in Hs. injection Hs as <-.
      destruct (HI b) as (q & P & Hr & E1 & E2 & E3 & El & HF).
      exists (mkPState (<[(length P + (length PR + k))%nat := p']> (sProcs q)) net' log'), P. cbn [wClients wProcs wNet wLog sNet sLog sProcs].
      split; [|split; [done|split; [done|split; [|by split]]]].
      + eapply rtc_r; [exact Hr|]. exists (length P + (length PR + k))%nat. unfold pstep. rewrite E3, lookup_app_r by lia.
        replace (length P + (length PR + k) - length P)%nat with (length PR + k)%nat by lia. rewrite lookup_app_r by lia.
        replace (length PR + k - length PR)%nat with k by lia. rewrite Hp. cbn [mbind option_bind]. by rewrite E1, E2, Hst.
      + rewrite E3, insert_app_r_alt by lia. replace (length P + (length PR + k) - length P)%nat with (length PR + k)%nat by lia.
        rewrite insert_app_r_alt by lia. by replace (length PR + k - length PR)%nat with k by lia.
    - cbn [wmoveStep] in Hs. unfold wstoreStep in Hs. destruct (workerStep _ _ _ _) as [t|]; [|done]. injection Hs as <-. apply HI.
    - cbn [wmoveStep] in Hs. unfold wstoreStep in Hs. destruct (delStep _ _) as [t|]; [|done]. injection Hs as <-. apply HI.
  Qed.
  Lemma pinv_init nseg progs b : pinv (wholeInit n nS nseg progs) b (pipeInit n nseg (pipeProg <$> progs)) [].
  Proof.
    exists (pipeInit n nseg (pipeProg <$> progs)), (client <$> (pipeProg <$> progs)). split; [apply rtc_refl|]. cbn. repeat (split; [done|]).
    split; [by rewrite !fmap_length|]. intros k c p Hc Hp. rewrite !list_lookup_fmap in *. destruct (progs !! k) as [cs|]; [|done].
    injection Hc as <-. injection Hp as <-. exists [], []. split; [split; [done|split; [apply suffix_nil|constructor]]|].
    repeat (split; [done|]). right. split; [by right|]. done.
  Qed.
  Lemma pinv_rtc s0 s start PR : rtc wstep s0 s → (∀ b, pinv s0 b start PR) → ∀ b, pinv s b start PR.
  Proof.
    intros Hr H0. revert s Hr. apply (rtc_ind_r (R := wstep) (λ s, ∀ b, pinv s b start PR)).
    - apply H0.
    - intros y z _ Hs. by apply pinv_step.
  Qed.
  (** Every execution is one of the pipeline alone. *)
  Lemma pinv_view s start PR : (∀ b, pinv s b start PR) → Forall (λ p, pActs p = [] ∧ pCalls p = []) PR →
    ∃ q P, rtc pipeSt start q ∧ sNet q = wNet s ∧ sLog q = wLog s ∧ sProcs q = P ++ PR ++ wProcs s ∧ length P = length (wClients s) ∧
      (∀ k, wreturned k s → returned k q) ∧ (all_returned s → pipe_rest s → Forall (λ p, pCalls p = []) (wProcs s) → quiescent q).
  Proof.
    intros Hp0 HPR. destruct (Hp0 (λ _, false)) as (q & P & Hq & E1 & E2 & E3 & El & HF).
    exists q, P. do 5 (split; [done|]).
    assert (Hdone : ∀ k c p, wClients s !! k = Some c → P !! k = Some p → wActs c = [] → wCalls c = [] → pActs p = [] ∧ pCalls p = []).
    { intros k c p Hc Hp H1 H2. destruct (HF k c p Hc Hp) as (l & r & Hpos & _ & H3 & H4). destruct (posn_nil_inv _ _ _ Hpos H1) as [-> ->].
      destruct H4 as [(? & _)|(_ & H4 & _)]; [done|]. split; [done|]. by rewrite H3, H2. }
    split.
    - intros k (c & Hc & H1 & H2). assert (Hlt : (k < length P)%nat) by (rewrite El; by eapply lookup_lt_Some).
      destruct (lookup_lt_is_Some_2 P k Hlt) as [p Hp]. exists p. rewrite E3, lookup_app_l by done. split; [done|]. by eapply Hdone.
    - intros Hall [Hnet Hps] Hcs. split; [congruence|]. rewrite E3. apply Forall_app. split; [|apply Forall_app; split; [done|]].
      + apply Forall_lookup. intros k p Hp. assert (Hlt : (k < length (wClients s))%nat) by (rewrite <- El; by eapply lookup_lt_Some).
        destruct (lookup_lt_is_Some_2 _ k Hlt) as [c Hc]. pose proof (Forall_lookup_1 _ _ _ _ Hall Hc) as [? ?]. by eapply Hdone.
      + apply Forall_lookup. intros k p Hp. split; [by apply (Forall_lookup_1 _ _ _ _ Hps Hp)|by apply (Forall_lookup_1 _ _ _ _ Hcs Hp)].
  Qed.
  Lemma pinv_reach nseg progs s : wreach nseg progs s → ∀ b, pinv s b (pipeInit n nseg (pipeProg <$> progs)) [].
  Proof. intros Hr. eapply pinv_rtc; [exact Hr|]. apply pinv_init. Qed.
  Lemma pipe_view nseg progs s : wreach nseg progs s →
    ∃ q, preach nseg (pipeProg <$> progs) q ∧ sNet q = wNet s ∧ sLog q = wLog s ∧
      (∀ k, wreturned k s → returned k q) ∧ (all_returned s → pipe_rest s → Forall (λ p, pCalls p = []) (wProcs s) → quiescent q).
  Proof.
    intros Hr. destruct (pinv_view s _ [] (pinv_reach _ _ _ Hr)) as (q & P & ? & ? & ? & _ & _ & ? & ?); [constructor|]. by exists q.
  Qed.

  (** * Both sides count the same indexing requests *)
  Definition wk_act (a : act) : Prop :=
    match a with ADo (EvInc NumIndexingReqs) => False | ADo _ | ASend _ _ => True | _ => False end.
  Definition wk_ok (p : proc) : Prop := pChan p ≠ None ∧ pCalls p = [] ∧ Forall wk_act (pActs p).
  Lemma hand_wk m : Forall wk_act (handler murmur n only m).
  Proof.
    assert (Hs : ∀ l, Forall wk_act ((λ i, ASend (CIxAdd i) (MAdd i None true)) <$> l)) by (intros l; by apply Forall_fmap, Forall_true).
    destruct m as [c|i d f|i id f|i o]; cbn [handler].
    - destruct c as [d f ct a fo|id fo|]; cbn [segActs]; [|constructor..]. destruct (seqb (DocId d) "0").
      + destruct fo; [apply Hs|constructor].
      + rewrite !Forall_app. repeat split; [by repeat constructor| |by repeat constructor]. destruct fo; [apply Hs|constructor].
    - destruct d, f; by repeat constructor.
    - destruct (seqb id "0"), f; by repeat constructor.
    - by repeat constructor.
  Qed.
  Lemma value_snoc log e c : value (log ++ [e]) c = value log c + if isInc c e then 1 else 0.
  Proof. unfold value, zlen. rewrite filter_blen_snoc. destruct (isInc c e); lia. Qed.
  Lemma wk_step p net log p' net' log' : wk_ok p → pSt p net log = Some (p', net', log') →
    wk_ok p' ∧ value log' NumIndexingReqs = value log NumIndexingReqs.
  Proof.
    intros (Hc & Hcs & Ha) H. unfold procStep in H. destruct p as [[ch|] calls acts reg ok]; [|done]. cbn [pChan pCalls pActs pReg pOk] in *.
    destruct acts as [|a acts].
    - destruct (takeFirst ch net) as [[m net1]|]; [|done]. cbn in H. injection H as <- <- <-. split; [|done]. split; [done|]. split; [done|]. apply hand_wk.
    - apply Forall_cons in Ha as [Ha HF]. destruct a as [e|c m| |c|c| |]; try done; cbn zeta in H.
      + injection H as <- <- <-. split; [by split|]. rewrite value_snoc. destruct e as [[]| |]; try done;
          match goal with |- context [isInc ?a ?b] => let v := eval vm_compute in (isInc a b) in change (isInc a b) with v end; cbn iota; lia.
      + destruct (decide _); [|done]. injection H as <- <- <-. split; [by split|done].
  Qed.
  Definition cinv (s : wstate) : Prop :=
    numReqs (wSLog s) = value (wLog s) NumIndexingReqs ∧ Forall wk_ok (wProcs s).
  Lemma client_value a reg ok net log p net' log' : pSt (mkProc None [] [a] reg ok) net log = Some (p, net', log') →
    ∀ sl, numReqs sl = value log NumIndexingReqs → numReqs (sl ++ reqEvent a) = value log' NumIndexingReqs.
  Proof.
    intros H sl Hsl. unfold procStep in H. cbn [pActs] in H. destruct a as [e|c m| |c|c| |]; cbn zeta in H; [|destruct (decide _); [|done]|..]; injection H as <- <- <-;
      cbn [reqEvent]; rewrite ?app_nil_r; try done.
    rewrite value_snoc. destruct e as [[]| |]; rewrite ?app_nil_r, ?nreqs_snoc; cbn [isReq];
      match goal with |- context [isInc ?a ?b] => let v := eval vm_compute in (isInc a b) in change (isInc a b) with v end; cbn iota; lia.
  Qed.
  Lemma cinv_step s s' : wstep s s' → cinv s → cinv s'.
  Proof.
    intros [[k|k|j|k] Hs] [HC HW]; cbn [wmoveStep] in Hs.
    - unfold wclientStep in Hs. destruct (wClients s !! k) as [c|]; [|done]. cbn [mbind option_bind] in Hs. destruct (wActs c) as [|a acts].
      + destruct (wCalls c); [done|]. by injection Hs as <-.
      + destruct a as [a|id data|id| | |].
        * destruct (pSt _ _ _) as [[[p net'] log']|] eqn:Hst; [|done]. cbn [mbind option_bind] in Hs. injection Hs as <-. split; [|done]. cbn [wSLog wLog].
          by eapply client_value.
        * destruct (wWork s !! _) as [[]|]; try done. injection Hs as <-. split; [|done]. cbn [wSLog wLog]. rewrite nreqs_snoc. cbn. lia.
        * injection Hs as <-. split; [|done]. cbn [wSLog wLog]. rewrite nreqs_snoc. cbn. lia.
        * by injection Hs as <-.
        * by injection Hs as <-.
        * by injection Hs as <-.
    - unfold wprocStep in Hs. destruct (wProcs s !! k) as [p|] eqn:Hp; [|done]. cbn [mbind option_bind] in Hs.
      destruct (pSt p (wNet s) (wLog s)) as [[[p' net'] log']|] eqn:Hst; [|done]. cbn [mbind option_bind] in Hs. injection Hs as <-.
      destruct (wk_step _ _ _ _ _ _ (Forall_lookup_1 _ _ _ _ HW Hp) Hst) as [H1 H2]. split; [cbn; by rewrite H2|]. by apply Forall_insert.
    - unfold wstoreStep, workerStep in Hs. cbn in Hs. destruct (wWork s !! j) as [[]|]; try done; injection Hs as <-; (split; [|done]); cbn [wSLog wLog ssLog];
        rewrite nreqs_snoc; cbn; lia.
    - unfold wstoreStep, delStep in Hs. cbn in Hs. destruct (wDels s !! k) as [id|]; try done; injection Hs as <-; (split; [|done]); cbn [wSLog wLog ssLog];
        rewrite nreqs_snoc; cbn; lia.
  Qed.
  Lemma cinv_rtc s0 s : rtc wstep s0 s → cinv s0 → cinv s.
  Proof. intros Hr H0. revert s Hr. apply (rtc_ind_r (R := wstep) cinv); [done|]. intros y z _ Hs. by apply cinv_step. Qed.
  Lemma cinv_reach nseg progs s : wreach nseg progs s → cinv s.
  Proof.
    intros Hr. eapply cinv_rtc; [exact Hr|]. split; [done|]. cbn. apply Forall_app. split.
    - apply Forall_replicate. split; [done|]. split; [done|constructor].
    - apply Forall_join, Forall_fmap, Forall_true. intros i. repeat constructor; done.
  Qed.

  (** * Actions of a client, seen from the store *)
  Definition sact1 (a : wact) : list sact :=
    match a with
    | WPipe (ADo (EvInc NumIndexingReqs)) => [SReq]
    | WSend id d => [SSend id d] | WSpawn id => [SSpawn id]
    | _ => []
    end.
  Definition sacts (l : list wact) : list sact := mjoin (sact1 <$> l).
  Lemma sacts_app l1 l2 : sacts (l1 ++ l2) = sacts l1 ++ sacts l2.
  Proof. unfold sacts. by rewrite fmap_app, join_app. Qed.
  Lemma sacts_none l : Forall (λ a, a ≠ ADo (EvInc NumIndexingReqs)) l → sacts (WPipe <$> l) = [].
  Proof. induction 1 as [|a l Ha _ IH]; [done|]. unfold sacts in *. rewrite !fmap_cons, mjoin_cons, IH. by destruct a as [[[]| |]| | | | | |]. Qed.
  Lemma sacts_tail : sacts wtail = [].
  Proof. done. Qed.
  Lemma sacts_call c : c ≠ WFlush → sacts (wcallA c) = scallActs (storeCall c).
  Proof.
    destruct c as [d data f|id f|]; [..|done]; intros _; cbn [wcallActs pipeCall callActs storeCall scallActs]; rewrite sacts_app.
    - unfold indexActs, incs. destruct (seqb (DocId d) "0"), f; done.
    - rewrite fmap_app, sacts_app. rewrite (sacts_none (mjoin _)).
      + unfold incs. destruct (seqb id "0"), f; done.
      + apply Forall_join, Forall_fmap, Forall_true. intros i. cbn. destruct (seqb id "0"); by repeat constructor.
  Qed.
  (** What is left of the first loop *)
  Definition sloop (ok2 : bool) (l : list wact) : list sact :=
    match l with
    | [] => []
    | [WLoop] => if ok2 then [] else [SRead; SLoop]
    | [WCmp; WLoop] => [if reqsFirst2 then SLoop else SLoopReqs]
    | _ => [SRead; SLoop]
    end.
  (** [ph]: what was in the log of the store when the clients started; it counts [R] requests, all stored. *)
  Definition srel (R : Z) (b : bool) (c : wclient) (t : sclient) : Prop :=
    ∃ l r, posn c l r ∧ scCalls t = storeProg (wCalls c) ∧
      ((b = true ∧ l ≠ [] ∧ scActs t = SRead :: SLoop :: sacts r) ∨
       ((b = false ∨ l = []) ∧ scActs t = sloop (wOk2 c) l ++ sacts r ∧ (l = [WCmp; WLoop] → wReg2 c = R + scReg t))).
  Definition all_stored (ph : list sevent) : Prop := numReqs ph = numStored ph.
  Definition stinv (ph : list sevent) (s : wstate) (b : nat → bool) (progs : list (list wcall)) : Prop :=
    ∃ q, sreach (storeProg <$> progs) q ∧ ssWork q = wWork s ∧ ssDels q = wDels s ∧ ph ++ ssLog q = wSLog s ∧
      length (ssClients q) = length (wClients s) ∧ ∀ k c t, wClients s !! k = Some c → ssClients q !! k = Some t → srel (numReqs ph) (b k) c t.
  Lemma nreqs_app l1 l2 : numReqs (l1 ++ l2) = numReqs l1 + numReqs l2.
  Proof. unfold numReqs, zlen. rewrite filter_app, app_length. lia. Qed.
  Lemma nstored_app l1 l2 : numStored (l1 ++ l2) = numStored l1 + numStored l2.
  Proof. unfold numStored, zlen. rewrite filter_app, app_length. lia. Qed.

  Lemma srel_insert R (b b' : nat → bool) (cl : list wclient) (P : list sclient) k c' p' : length P = length cl →
    (∀ j c p, cl !! j = Some c → P !! j = Some p → srel R (b' j) c p) → (∀ j, j ≠ k → b' j = b j) → srel R (b k) c' p' →
    ∀ j c p, <[k := c']> cl !! j = Some c → <[k := p']> P !! j = Some p → srel R (b j) c p.
  Proof.
    intros Hl H Hb Hk j c p Hc Hp. destruct (decide (j = k)) as [->|Hne].
    - rewrite list_lookup_insert in Hc by (by rewrite <- (insert_length cl k c'); eapply lookup_lt_Some).
      rewrite list_lookup_insert in Hp by (by rewrite <- (insert_length P k p'); eapply lookup_lt_Some). congruence.
    - rewrite list_lookup_insert_ne in Hc by done. rewrite list_lookup_insert_ne in Hp by done. rewrite <- Hb by done. eauto.
  Qed.

  Lemma wait_sloop ok2 a l : WPipe a :: l `suffix_of` wloop1 → sloop ok2 (WPipe a :: l) = [SRead; SLoop] ∧ sloop ok2 l = [SRead; SLoop] ∧ l ≠ [WCmp; WLoop].
  Proof.
    intros [p E]. unfold wLoop1, waitActs in E.
    destruct reqsFirst; cbn in E;
      repeat (destruct p as [|? p]; cbn in E; [first [discriminate E|injection E as <- <-; done]|injection E as _ E]); by destruct p.
  Qed.

  Lemma req_dec (a : act) : a = ADo (EvInc NumIndexingReqs) ∨ a ≠ ADo (EvInc NumIndexingReqs).
  Proof. destruct a as [[[]| |]| | | | | |]; first [left; reflexivity|right; discriminate]. Qed.

  Lemma stinv_client ph k s s' progs : all_stored ph → cinv s → (∀ b, stinv ph s b progs) → wmv (WMClient k) s = Some s' → ∀ b, stinv ph s' b progs.
  Proof.
    intros Hph [HC _] HI Hs b. destruct s as [cl ps net log w dl sl]. cbn [wmoveStep] in Hs. unfold wclientStep in Hs. cbn [wClients wProcs wNet wLog wWork wDels wSLog] in *.
    destruct (cl !! k) as [c|] eqn:Hc; [|done]. cbn [mbind option_bind] in Hs.
    assert (Stay : ∀ b' c' net' log', (∀ j, j ≠ k → b' j = b j) → (∀ t, srel (numReqs ph) (b' k) c t → srel (numReqs ph) (b k) c' t) →
      stinv ph (mkWS (<[k := c']> cl) ps net' log' w dl sl) b progs).
    { intros b' c' net' log' Hb Hp. destruct (HI b') as (q & Hr & E1 & E2 & E3 & El & HF). cbn [wClients wWork wDels wSLog] in *.
      assert (Hlt : (k < length (ssClients q))%nat) by (rewrite El; by eapply lookup_lt_Some).
      destruct (lookup_lt_is_Some_2 _ k Hlt) as [t Ht].
      exists q. cbn [wClients wWork wDels wSLog]. repeat (split; [done|]). split; [by rewrite insert_length|].
      rewrite <- (list_insert_id _ k t Ht). eapply (srel_insert _ b b'); [done|done|done|]. apply Hp. by eapply HF. }
    assert (Move : ∀ b' c' net' log' w' dl' sl', (∀ j, j ≠ k → b' j = b j) →
      (∀ q t, ssClients q !! k = Some t → ssWork q = w → ssDels q = dl → ph ++ ssLog q = sl → srel (numReqs ph) (b' k) c t → ∃ m t' sl0,
        smv m q = Some (mkSS (<[k := t']> (ssClients q)) w' dl' sl0) ∧ ph ++ sl0 = sl' ∧ srel (numReqs ph) (b k) c' t') →
      stinv ph (mkWS (<[k := c']> cl) ps net' log' w' dl' sl') b progs).
    { intros b' c' net' log' w' dl' sl' Hb Hp. destruct (HI b') as (q & Hr & E1 & E2 & E3 & El & HF). cbn [wClients wWork wDels wSLog] in *.
      assert (Hlt : (k < length (ssClients q))%nat) by (rewrite El; by eapply lookup_lt_Some).
      destruct (lookup_lt_is_Some_2 _ k Hlt) as [t Ht].
      destruct (Hp q t Ht E1 E2 E3) as (m & t' & sl0 & Hst & Hsl & Hrel); [by eapply HF|].
      eexists. split; [unfold store_reach; eapply rtc_r; [exact Hr|]; by exists m|]. cbn [ssWork ssDels ssLog ssClients wClients wWork wDels wSLog].
      repeat (split; [done|]). split; [by rewrite !insert_length|]. by eapply (srel_insert _ b b'). }
    (* clients outside the first loop *)
    assert (Out : ∀ a acts t, wActs c = a :: acts → plainw a → (∀ a', a ≠ WPipe a' ∨ ∀ l, ¬ WPipe a' :: l `suffix_of` wloop1) → srel (numReqs ph) (b k) c t →
      Forall plainw acts ∧ scCalls t = storeProg (wCalls c) ∧ scActs t = sact1 a ++ sacts acts).
    { intros a acts t Ha Hpl Hno (l & r & (E & Hsuf & HF) & H1 & H2). rewrite Ha in E. destruct l as [|x l].
      - cbn [app] in E. subst r. apply Forall_cons in HF as [_ HF]. destruct H2 as [(_ & ? & _)|(_ & H2 & _)]; [done|]. done.
      - injection E as <- E. pose proof (loop_suffix _ _ Hsuf) as Hl. destruct a; try done. destruct (Hno a) as [?|Hn]; [done|]. by apply Hn in Hsuf. }
    destruct (wActs c) as [|a acts] eqn:Ha.
    - destruct (wCalls c) as [|call cs] eqn:Hcs; [done|]. injection Hs as <-. apply (Move b); [done|].
      intros q t Ht E1 E2 E3 (l & r & Hpos & H1 & H2). destruct (posn_nil_inv _ _ _ Hpos Ha) as [-> ->].
      destruct H2 as [(_ & ? & _)|(_ & H2 & _)]; [done|]. exists (MClient k). eexists _, _. split.
      { cbn [smoveStep]. unfold clientStep. rewrite Ht. cbn [mbind option_bind]. rewrite H2, H1, Hcs. cbn [sloop app sacts fmap list_fmap mjoin list_join storeProg]. by rewrite E1, E2. }
      split; [exact E3|]. destruct (call_split call) as [[-> E]|HF].
      + exists wloop1, wtail. split; [split; [done|split; [done|apply plain_pipe]]|]. cbn [scCalls scActs scReg wCalls wOk2 wReg2]. split; [done|].
        destruct (b k).
        * left. split; [done|]. split; [by destruct reqsFirst|done].
        * right. split; [by left|]. split; [by destruct reqsFirst|done].
      + exists [], (wcallA call). split; [split; [done|split; [apply suffix_nil|done]]|]. cbn [scCalls scActs scReg wCalls wOk2 wReg2]. split; [done|].
        right. split; [by right|]. split; [|done]. cbn [sloop app]. rewrite sacts_call; [done|]. intros ->. cbn [wcallActs] in HF. unfold wLoop1 in HF.
        apply Forall_app in HF as [HF _]. apply Forall_app in HF as [_ HF]. by inversion HF.
    - destruct a as [a|id data|id| | |].
      + destruct (pSt _ net log) as [[[p0 net'] log']|] eqn:Hst; [|done]. cbn [mbind option_bind] in Hs. injection Hs as <-.
        assert (E0 : pActs p0 = [] ∨ sacts (WPipe <$> pActs p0) = []).
        { unfold procStep in Hst. cbn [pActs] in Hst. destruct a as [e|ch m| |x|x| |]; cbn zeta in Hst; [|destruct (decide _); [|done]|..]; injection Hst as <- _ _; try (by left); cbn [pActs];
            right; destruct (wOk c); try done. destruct reqsFirst; done. }
        destruct (req_dec a) as [->|Hne].
        * (* a request is counted *)
          unfold procStep in Hst. cbn [pActs] in Hst. injection Hst as <- <- <-. cbn [pActs pReg pOk fmap list_fmap app reqEvent].
          apply (Move b); [done|]. intros q t Ht E1 E2 E3 Hrel.
          destruct (Out _ _ t eq_refl I) as (HF & H1 & H2).
          { intros a'. destruct (req_dec a') as [->|?]; [right; intros l Hl; by apply loop_suffix in Hl as [_ ?]|left; congruence]. }
          { done. }
          exists (MClient k). eexists _, _. split.
          { cbn [smoveStep]. unfold clientStep. rewrite Ht. cbn [mbind option_bind]. rewrite H2. cbn [sact1 app]. by rewrite E1, E2. }
          split; [by rewrite <- E3, app_assoc|].
          exists [], acts. split; [split; [done|split; [apply suffix_nil|done]]|]. split; [done|]. right. split; [by right|]. done.
        * assert (reqEvent a = []) as -> by (by destruct a as [[[]| |]| | | | | |]). rewrite app_nil_r. apply (Stay b); [done|].
          intros t (l & r & (E & Hsuf & HF) & H1 & H2). rewrite Ha in E. destruct l as [|x l].
          -- cbn [app] in E. subst r. apply Forall_cons in HF as [_ HF]. destruct H2 as [(_ & ? & _)|(_ & H2 & _)]; [done|].
             exists [], ((WPipe <$> pActs p0) ++ acts). split; [split; [done|split; [apply suffix_nil|apply Forall_app; split; [apply plain_pipe|done]]]|].
             split; [done|]. right. split; [by right|]. split; [|done]. cbn [sloop app] in *. rewrite sacts_app.
             assert (sacts (WPipe <$> pActs p0) = []) as -> by (destruct E0 as [-> | ->]; done). rewrite H2.
             by destruct a as [[[]| |]| | | | | |].
          -- injection E as <- ->. destruct (wait_sloop (wOk2 c) _ _ Hsuf) as (W1 & W2 & W3). destruct (loop_suffix _ _ Hsuf) as [Hne' Hf].
             assert (pActs p0 = []) as ->.
             { unfold procStep in Hst. cbn [pActs] in Hst. destruct a; try done; injection Hst as <- _ _; done. }
             exists l, r. split; [split; [done|split; [by eapply suffix_tl|done]]|]. split; [done|].
             destruct H2 as [(? & _ & H2)|(Hb & H2 & _)]; [by left|right]. split; [destruct Hb; [by left|done]|]. cbn [wOk2 wReg2].
             split; [by rewrite W2, H2, W1|done].
      + destruct (w !! _) as [[]|] eqn:Ew; try done. injection Hs as <-. apply (Move b); [done|]. intros q t Ht E1 E2 E3 Hrel.
        destruct (Out _ _ t eq_refl I) as (HF & H1 & H2); [by left|done|].
        exists (MClient k). eexists _, _. split.
        { cbn [smoveStep]. unfold clientStep. rewrite Ht. cbn [mbind option_bind]. rewrite H2. cbn [sact1 app]. rewrite E1, Ew. by rewrite E2. }
        split; [by rewrite <- E3, app_assoc|].
        exists [], acts. split; [split; [done|split; [apply suffix_nil|done]]|]. split; [done|]. right. split; [by right|]. done.
      + injection Hs as <-. apply (Move b); [done|]. intros q t Ht E1 E2 E3 Hrel.
        destruct (Out _ _ t eq_refl I) as (HF & H1 & H2); [by left|done|].
        exists (MClient k). eexists _, _. split.
        { cbn [smoveStep]. unfold clientStep. rewrite Ht. cbn [mbind option_bind]. rewrite H2. cbn [sact1 app]. by rewrite E1, E2. }
          split; [by rewrite <- E3, app_assoc|].
        exists [], acts. split; [split; [done|split; [apply suffix_nil|done]]|]. split; [done|]. right. split; [by right|]. done.
      + (* reading the first counter *)
        injection Hs as <-.
        assert (Hin : ∀ b0 t, srel (numReqs ph) b0 c t → ∃ r, acts = [WCmp; WLoop] ++ r ∧ Forall plainw r ∧ scCalls t = storeProg (wCalls c) ∧ scActs t = SRead :: SLoop :: sacts r).
        { intros b0 t (l & r & (E & Hsuf & HF) & H1 & H2). rewrite Ha in E. destruct l as [|x l].
          { cbn [app] in E. subst r. by apply Forall_cons in HF as [? HF]. }
          injection E as <- E. pose proof (loop_suffix _ _ Hsuf) as Hl. cbn in Hl. subst l. exists r. split; [done|]. split; [done|]. split; [done|].
          by destruct H2 as [(_ & _ & H2)|(_ & H2 & _)]. }
        destruct (b k) eqn:Hb.
        * apply (Stay b); [done|]. intros t Hrel. rewrite Hb in *. destruct (Hin _ _ Hrel) as (r & -> & HF & H1 & H2).
          exists [WCmp; WLoop], r. split; [split; [done|split; [|done]]|]. { exists ((WPipe <$> waitActs reqsFirst) ++ [WRead]). unfold wLoop1. by rewrite <- app_assoc. }
          split; [done|]. left. done.
        * apply (Move b); [done|]. intros q t Ht E1 E2 E3 Hrel. rewrite Hb in *. destruct (Hin _ _ Hrel) as (r & -> & HF & H1 & H2).
          exists (if reqsFirst2 then MClient k else MAlt k),
            (if reqsFirst2 then mkSC (scCalls t) (SLoop :: sacts r) (numReqs (ssLog q)) else mkSC (scCalls t) (SLoopReqs :: sacts r) (numStored (ssLog q))), (ssLog q). split.
          { destruct reqsFirst2; cbn [smoveStep]; [unfold clientStep|unfold altRead]; rewrite Ht; cbn [mbind option_bind]; rewrite H2; by rewrite E1, E2. }
          split; [exact E3|].
          exists [WCmp; WLoop], r. split; [split; [done|split; [|done]]|]. { exists ((WPipe <$> waitActs reqsFirst) ++ [WRead]). unfold wLoop1. by rewrite <- app_assoc. }
          split; [by destruct reqsFirst2|]. right. split; [by left|]. cbn [wOk2 wReg2 sloop]. destruct reqsFirst2; cbn [scActs scReg]; (split; [reflexivity|]); intros _; rewrite <- ?HC, <- E3, ?nreqs_app, ?nstored_app; [done|unfold all_stored in Hph; lia].
      + (* comparing *)
        injection Hs as <-.
        assert (Hsuf1 : [WLoop] `suffix_of` wloop1). { exists ((WPipe <$> waitActs reqsFirst) ++ [WRead; WCmp]). unfold wLoop1. by rewrite <- app_assoc. }
        destruct (b k) eqn:Hb.
        * apply (Stay b); [done|]. intros t (l & r & (E & Hsuf & HF) & H1 & H2). rewrite Ha in E. destruct l as [|x l].
          { cbn [app] in E. subst r. by apply Forall_cons in HF as [? HF]. }
          injection E as <- E. pose proof (loop_suffix _ _ Hsuf) as Hl. cbn in Hl. subst l. cbn [app] in E. subst acts. rewrite Hb in *.
          destruct H2 as [(_ & _ & H2)|([?|?] & _)]; [|done|done].
          exists [WLoop], r. split; [split; [done|split; [done|done]]|]. split; [done|]. by left.
        * apply (Move b); [done|]. intros q t Ht E1 E2 E3 (l & r & (E & Hsuf & HF) & H1 & H2). rewrite Ha in E. destruct l as [|x l].
          { cbn [app] in E. subst r. by apply Forall_cons in HF as [? HF]. }
          injection E as <- E. pose proof (loop_suffix _ _ Hsuf) as Hl. cbn in Hl. subst l. cbn [app] in E. subst acts. rewrite Hb in *.
          destruct H2 as [(? & _ & H2)|(_ & H2 & H3)]; [done|]. cbn [sloop app] in H2. specialize (H3 eq_refl).
          exists (MClient k), (mkSC (scCalls t) (if scReg t =? (if reqsFirst2 then numStored (ssLog q) else numReqs (ssLog q)) then sacts r else SRead :: SLoop :: sacts r) (scReg t)), (ssLog q). split.
          { cbn [smoveStep]. unfold clientStep. rewrite Ht. cbn [mbind option_bind]. rewrite H2. destruct reqsFirst2; by rewrite E1, E2. }
          split; [exact E3|].
          exists [WLoop], r. split; [split; [done|split; [done|done]]|]. split; [done|]. right. split; [by left|]. cbn [wOk2 wReg2 scActs]. split; [|done].
          rewrite H3, <- HC, <- E3, nreqs_app, nstored_app. unfold all_stored in Hph. cbn [sloop].
          replace (numReqs ph + scReg t =? (if reqsFirst2 then numStored ph + numStored (ssLog q) else numReqs ph + numReqs (ssLog q)))
            with (scReg t =? (if reqsFirst2 then numStored (ssLog q) else numReqs (ssLog q))).
          { by destruct (_ =? _). }
          destruct reqsFirst2; apply Bool.eq_iff_eq_true; rewrite !Z.eqb_eq; lia.
      + (* the end of a round *)
        injection Hs as <-. destruct (wOk c && wOk2 c) eqn:Hok.
        * apply andb_true_iff in Hok as [_ Hok]. apply (Stay (fupd b k false)); [apply fupd_ne|]. rewrite fupd_eq.
          intros t (l & r & (E & Hsuf & HF) & H1 & H2). rewrite Ha in E. destruct l as [|x l].
          { cbn [app] in E. subst r. by apply Forall_cons in HF as [? HF]. }
          injection E as <- E. pose proof (loop_suffix _ _ Hsuf) as Hl. cbn in Hl. subst l. cbn [app] in E. subst acts.
          destruct H2 as [(? & _)|(_ & H2 & _)]; [done|]. cbn [sloop] in H2. rewrite Hok in H2.
          exists [], r. split; [split; [done|split; [apply suffix_nil|done]]|]. split; [done|]. right. split; [by right|]. done.
        * apply (Stay (fupd b k true)); [apply fupd_ne|]. rewrite fupd_eq.
          intros t (l & r & (E & Hsuf & HF) & H1 & H2). rewrite Ha in E. destruct l as [|x l].
          { cbn [app] in E. subst r. by apply Forall_cons in HF as [? HF]. }
          injection E as <- E. pose proof (loop_suffix _ _ Hsuf) as Hl. cbn in Hl. subst l. cbn [app] in E. subst acts.
          destruct H2 as [(_ & _ & H2)|([?|?] & _)]; [|done|done].
          exists wloop1, r. split; [split; [done|split; [done|done]]|]. split; [done|]. destruct (b k).
          -- left. split; [done|]. split; [by destruct reqsFirst|done].
          -- right. split; [by left|]. split; [by rewrite H2; destruct reqsFirst|by destruct reqsFirst].
  Qed.
  Lemma stinv_step ph s s' progs : all_stored ph → wstep s s' → cinv s → (∀ b, stinv ph s b progs) → ∀ b, stinv ph s' b progs.
  Proof.
    intros Hph [[k|k|j|k] Hs] HC HI b.
    - by eapply stinv_client.
    - cbn [wmoveStep] in Hs. unfold wprocStep in Hs. destruct (wProcs s !! k) as [p|] eqn:Hp; [|done]. cbn [mbind option_bind] in Hs.
      destruct (pSt p (wNet s) (wLog s)) as [[[p' net'] log']|] eqn:Hst; [|done]. cbn [mbind option_bind] in Hs. injection Hs as <-. apply HI.
    - destruct (HI b) as (q & Hr & E1 & E2 & E3 & El & HF). cbn [wmoveStep] in Hs. unfold wstoreStep in Hs. 
      destruct (workerStep _ _ _ _) as [t|] eqn:Hw; [|done]. injection Hs as <-.
      assert (Hq : ∃ sl0, smv (MWorker j) q = Some (mkSS (ssClients q) (ssWork t) (ssDels t) sl0) ∧ ph ++ sl0 = ssLog t).
      { cbn [smoveStep]. unfold workerStep in *. cbn [ssWork ssDels ssLog ssClients] in Hw. rewrite E1, E2. cbn in *.
        destruct (wWork s !! j) as [[]|]; try done; cbn in *; injection Hw as <-; eexists; (split; [reflexivity|]); cbn [ssLog]; by rewrite <- E3, app_assoc. }
      destruct Hq as (sl0 & Hq & Hsl).
      eexists. split; [unfold store_reach; eapply rtc_r; [exact Hr|]; by exists (MWorker j)|]. done.
    - destruct (HI b) as (q & Hr & E1 & E2 & E3 & El & HF). cbn [wmoveStep] in Hs. unfold wstoreStep in Hs. 
      destruct (delStep _ _) as [t|] eqn:Hw; [|done]. injection Hs as <-.
      assert (Hq : ∃ sl0, smv (MDel k) q = Some (mkSS (ssClients q) (ssWork t) (ssDels t) sl0) ∧ ph ++ sl0 = ssLog t).
      { cbn [smoveStep]. unfold delStep in *. cbn [ssWork ssDels ssLog ssClients] in Hw. rewrite E1, E2. cbn in *.
        destruct (wDels s !! k) as [id|]; try done; cbn in *; injection Hw as <-; eexists; (split; [reflexivity|]); cbn [ssLog]; by rewrite <- E3, app_assoc. }
      destruct Hq as (sl0 & Hq & Hsl).
      eexists. split; [unfold store_reach; eapply rtc_r; [exact Hr|]; by exists (MDel k)|]. done.
  Qed.
  Lemma stinv_rtc ph progs s0 s : all_stored ph → rtc wstep s0 s → cinv s0 → (∀ b, stinv ph s0 b progs) → ∀ b, stinv ph s b progs.
  Proof.
    intros Hph Hr H0 H1. assert (H : cinv s ∧ ∀ b, stinv ph s b progs); [|apply H].
    revert s Hr. apply (rtc_ind_r (R := wstep) (λ s, cinv s ∧ ∀ b, stinv ph s b progs)); [done|].
    intros y z _ Hs [I1 I2]. split; [by eapply cinv_step|by eapply stinv_step].
  Qed.
  (** The start, with a log that counts as many requests as stored documents *)
  Lemma stinv_start ph progs b ps net log :
    stinv ph (mkWS ((λ cs, mkWC cs [] 0 true 0 true) <$> progs) ps net log (replicate (Z.to_nat nS) WIdle) [] ph) b progs.
  Proof.
    exists (storeStart nS (storeProg <$> progs)). split; [apply rtc_refl|]. cbn. do 2 (split; [done|]). split; [by rewrite app_nil_r|].
    split; [by rewrite !fmap_length|]. intros k c t Hc Ht. rewrite !list_lookup_fmap in *. destruct (progs !! k) as [cs|]; [|done].
    injection Hc as <-. injection Ht as <-. exists [], []. split; [split; [done|split; [apply suffix_nil|constructor]]|].
    split; [done|]. right. split; [by right|]. done.
  Qed.
  Lemma stinv_reach nseg progs s : wreach nseg progs s → ∀ b, stinv [] s b progs.
  Proof.
    intros Hr. eapply stinv_rtc; [done|exact Hr|apply (cinv_reach nseg progs); apply rtc_refl|]. intros b. apply stinv_start.
  Qed.
  (** Every execution is one of the store alone. *)
  Lemma stinv_view ph progs s : (∀ b, stinv ph s b progs) →
    ∃ q, sreach (storeProg <$> progs) q ∧ ph ++ ssLog q = wSLog s ∧ ssWork q = wWork s ∧ ssDels q = wDels s ∧
      (∀ k, wreturned k s → ∃ t, ssClients q !! k = Some t ∧ scCalls t = [] ∧ scActs t = []) ∧ (all_returned s → clients_done q).
  Proof.
    intros Hst. destruct (Hst (λ _, false)) as (q & Hq & E1 & E2 & E3 & El & HF).
    exists q. split; [done|]. split; [done|]. split; [done|]. split; [done|].
    assert (Hdone : ∀ k c t, wClients s !! k = Some c → ssClients q !! k = Some t → wActs c = [] → wCalls c = [] → scCalls t = [] ∧ scActs t = []).
    { intros k c p Hc Hp H1 H2. destruct (HF k c p Hc Hp) as (l & r & Hpos & H3 & H4). destruct (posn_nil_inv _ _ _ Hpos H1) as [-> ->].
      destruct H4 as [(? & _)|(_ & H4 & _)]; [done|]. split; [|done]. by rewrite H3, H2. }
    split.
    - intros k (c & Hc & H1 & H2). assert (Hlt : (k < length (ssClients q))%nat) by (rewrite El; by eapply lookup_lt_Some).
      destruct (lookup_lt_is_Some_2 _ k Hlt) as [t Ht]. exists t. split; [done|]. by eapply Hdone.
    - intros Hall. apply Forall_lookup. intros k t Ht. assert (Hlt : (k < length (wClients s))%nat) by (rewrite <- El; by eapply lookup_lt_Some).
      destruct (lookup_lt_is_Some_2 _ k Hlt) as [c Hc]. pose proof (Forall_lookup_1 _ _ _ _ Hall Hc) as [? ?]. by eapply Hdone.
  Qed.
  Lemma store_view nseg progs s : wreach nseg progs s →
    ∃ q, sreach (storeProg <$> progs) q ∧ ssLog q = wSLog s ∧ ssWork q = wWork s ∧ ssDels q = wDels s ∧
      (∀ k, wreturned k s → ∃ t, ssClients q !! k = Some t ∧ scCalls t = [] ∧ scActs t = []) ∧ (all_returned s → clients_done q).
  Proof. intros Hr. exact (stinv_view [] progs s (stinv_reach _ _ _ Hr)). Qed.
End Whole.
