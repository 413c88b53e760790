(** Fair executions of the engine with UseStore come to rest. *)
From Verif Require Import ModelWhole SpecPipe SpecLive SpecStore SpecWhole ProofTopK ProofRoute ProofPipe ProofFlush ProofFlushThms ProofStoreRun ProofStoreThms ProofLive ProofWhole ProofWholeThms.

Section WLive.
  Context (murmur : string → Z) (n : Z) (only reqsFirst : bool) (cap : chan → nat).
  Context (accepts : string → string → bool) (encode : DocData → option string) (nS : Z) (reqsFirst2 : bool).
  Hypothesis Hn : 1 <= n < 2^32.
  Hypothesis Hcap : ∀ ch, (1 <= cap ch)%nat.
  Hypothesis HnS : 1 <= nS.
  Notation wcallA := (wcallActs n reqsFirst).
  Notation callA := (callActs n reqsFirst).
  Notation hand := (handler murmur n only).
  Notation pSt := (procStep murmur n only reqsFirst cap).
  Notation wloop1 := (wLoop1 reqsFirst).
  Notation wmv := (wmoveStep murmur n only reqsFirst cap accepts encode nS reqsFirst2).
  Notation wreach := (whole_reach murmur n only reqsFirst cap accepts encode nS reqsFirst2).
  Notation loop2 := (WPipe <$> flushLoop2).
  Notation pacts := ProofWhole.pacts.

  (** * Positions of clients *)
  Definition is_wf (a : ModelWhole.wact) : bool := match a with WPipe a => is_f a | WRead | WCmp | WLoop => true | _ => false end.
  Definition plainW (a : ModelWhole.wact) : bool := match a with WPipe a => plainF a | WRead | WCmp => true | _ => false end.
  Lemma call_no_wf c a : c ≠ WFlush → a ∈ wcallA c → is_wf a = false.
  Proof.
    intros Hc Ha.
    assert (Hp : ∀ c, c ≠ EFlush → a ∈ WPipe <$> callA c → is_wf a = false).
    { intros c' Hc' (x & -> & Hx)%elem_of_list_fmap. cbn. by eapply call_no_f. }
    destruct c as [d data fo|id fo|]; [..|done]; cbn [wcallActs] in Ha; apply elem_of_app in Ha as [Ha|Ha]; try (by eapply Hp; [|exact Ha]);
      destruct (seqb _ _); try (by apply elem_of_nil in Ha); by apply elem_of_list_singleton in Ha as ->.
  Qed.
  Lemma wf_positions a l c : is_wf a = true → a :: l `suffix_of` wcallA c → c = WFlush ∧
    ((∃ p, a :: l = p ++ WLoop :: wtail ∧ Forall (λ x, plainW x = true) p) ∨
     (∃ p, a :: l = p ++ [WPipe FLoop2] ∧ Forall (λ x, plainW x = true) p)).
  Proof.
    intros Ha Hc. assert (Hd : c = WFlush ∨ c ≠ WFlush) by (destruct c; auto).
    destruct Hd as [->|Hne].
    2: { assert (is_wf a = false); [|congruence]. apply (call_no_wf c); [done|]. destruct Hc as [pre ->]. apply elem_of_app. right. by left. }
    split; [done|]. destruct Hc as [pre E].
    Ltac wpos E := first
      [ left; eexists []; split; [rewrite <- E; reflexivity|constructor]
      | left; eexists [_]; split; [rewrite <- E; reflexivity|]; repeat constructor
      | left; eexists [_; _]; split; [rewrite <- E; reflexivity|]; repeat constructor
      | left; eexists [_; _; _]; split; [rewrite <- E; reflexivity|]; repeat constructor
      | left; eexists [_; _; _; _]; split; [rewrite <- E; reflexivity|]; repeat constructor
      | left; eexists [_; _; _; _; _]; split; [rewrite <- E; reflexivity|]; repeat constructor
      | left; eexists [_; _; _; _; _; _]; split; [rewrite <- E; reflexivity|]; repeat constructor
      | left; eexists [_; _; _; _; _; _; _]; split; [rewrite <- E; reflexivity|]; repeat constructor
      | right; eexists []; split; [rewrite <- E; reflexivity|constructor]
      | right; eexists [_]; split; [rewrite <- E; reflexivity|]; repeat constructor
      | right; eexists [_; _]; split; [rewrite <- E; reflexivity|]; repeat constructor
      | right; eexists [_; _; _]; split; [rewrite <- E; reflexivity|]; repeat constructor ].
    cbn [wcallActs] in E. unfold wLoop1, waitActs in E. destruct reqsFirst; cbn in E;
      repeat (destruct pre as [|? pre]; cbn in E; [first [wpos E|injection E as <- _; discriminate Ha]|injection E as _ E]); by destruct pre.
  Qed.
  Lemma loop_rest l c : WLoop :: l `suffix_of` wcallA c → l = wtail.
  Proof.
    intros H. apply wf_positions in H as [_ [(p & E & HF)|(p & E & HF)]]; [| |done].
    - destruct p as [|x p]; [by injection E|]. injection E as <- E. apply Forall_cons in HF as [HF _]. done.
    - destruct p as [|x p]; [done|]. injection E as <- E. apply Forall_cons in HF as [HF _]. done.
  Qed.
  Lemma loop2_rest l c : WPipe FLoop2 :: l `suffix_of` wcallA c → l = [].
  Proof.
    intros H. apply wf_positions in H as [_ [(p & E & HF)|(p & E & HF)]]; [| |done].
    - destruct p as [|x p]; [done|]. injection E as <- E. apply Forall_cons in HF as [HF _]. done.
    - destruct p as [|x p]; [by injection E|]. injection E as <- E. apply Forall_cons in HF as [HF _]. done.
  Qed.
  Lemma no_loop1 l c : ¬ WPipe FLoop1 :: l `suffix_of` wcallA c.
  Proof.
    intros H. apply wf_positions in H as [_ [(p & E & HF)|(p & E & HF)]]; [| |done].
    - destruct p as [|x p]; [done|]. injection E as <- E. apply Forall_cons in HF as [HF _]. done.
    - destruct p as [|x p]; [done|]. injection E as <- E. apply Forall_cons in HF as [HF _]. done.
  Qed.
  Lemma call_client c a : WPipe a ∈ wcallA c → client_act n a.
  Proof.
    assert (Hp : ∀ c, WPipe a ∈ WPipe <$> callA c → client_act n a).
    { intros c' (x & [= <-] & Hx)%elem_of_list_fmap. pose proof (call_acts n reqsFirst c') as HF. rewrite Forall_forall in HF. by apply HF. }
    destruct c as [d data fo|id fo|]; cbn [wcallActs]; intros [Ha|Ha]%elem_of_app; try (by eapply Hp; exact Ha).
    - destruct (seqb _ _); [by apply elem_of_nil in Ha|]. by apply elem_of_list_singleton in Ha.
    - destruct (seqb _ _); [by apply elem_of_nil in Ha|]. by apply elem_of_list_singleton in Ha.
    - unfold wLoop1 in Ha. apply elem_of_app in Ha as [Ha|Ha].
      + apply (Hp EFlush). apply elem_of_list_fmap in Ha as (x & [= <-] & Hx). apply elem_of_list_fmap_1. rewrite flush_acts. apply elem_of_app. left.
        unfold waitActs in Hx. unfold flushLoop1. destruct reqsFirst; cbn in *; rewrite !elem_of_cons in *; tauto.
      + rewrite !elem_of_cons, elem_of_nil in Ha. by destruct Ha as [[=]|[[=]|[[=]|[]]]].
    - apply (Hp EFlush). apply elem_of_list_fmap in Ha as (x & [= <-] & Hx). apply elem_of_list_fmap_1. cbn [callActs]. apply elem_of_app. by right.
  Qed.

  (** * The invariant *)
  Notation okp := (ProofLive.okp n reqsFirst).
  Notation send_ok := (ProofLive.send_ok n).
  Definition nets (net : list (chan * msg)) : Prop := Forall (λ cm, send_ok cm.1 cm.2) net.
  Definition okc (c : wclient) : Prop := ∃ call, wActs c `suffix_of` wcallA call.
  Record winv (nc np : nat) (s : wstate) : Prop := {
    wi_c : length (wClients s) = nc;
    wi_p : length (wProcs s) = np;
    wi_w : length (wWork s) = Z.to_nat nS;
    wi_clients : Forall okc (wClients s);
    wi_procs : Forall (λ p, okp p ∧ pChan p ≠ None) (wProcs s);
    wi_net : nets (wNet s);
    wi_work : ∀ ch, ch = CSeg ∨ leafc n ch → ∃ k p, wProcs s !! k = Some p ∧ pChan p = Some ch }.

  Lemma pipe_acts a reg ok net log p net' log' c l : WPipe a :: l `suffix_of` wcallA c → nets net →
    pSt (mkProc None [] [a] reg ok) net log = Some (p, net', log') →
    nets net' ∧ ∃ c', (WPipe <$> pActs p) ++ l `suffix_of` wcallA c'.
  Proof.
    intros Hc Hnet H. unfold procStep in H. cbn [pActs] in H. pose proof (suffix_cons_tl _ _ _ Hc) as Hl.
    assert (Hca : client_act n a). { apply (call_client c). destruct Hc as [pre ->]. apply elem_of_app. right. by left. }
    destruct a as [e|ch m| |ct|ct| |]; cbn zeta in H; [|destruct (decide _); [|done]|..]; injection H as <- <- <-; cbn [pActs fmap list_fmap app].
    - split; [done|]. by exists c.
    - split; [|by exists c]. apply Forall_app. split; [done|]. by constructor.
    - split; [done|]. by exists c.
    - split; [done|]. by exists c.
    - split; [done|]. by exists c.
    - by apply no_loop1 in Hc.
    - split; [done|]. destruct ok; [by exists c|]. apply loop2_rest in Hc as ->. exists WFlush. rewrite !app_nil_r.
      exists (wloop1 ++ (WPipe <$> indexActs zeroCall "0" true)). cbn [wcallActs]. rewrite fmap_app, <- app_assoc. done.
  Qed.
  Lemma winv_step nc np m s s' : winv nc np s → wmv m s = Some s' → winv nc np s'.
  Proof.
    intros [Lc Lp Lw Cs Ps Ne Wk] Hs. destruct m as [k|k|j|k]; cbn [wmoveStep] in Hs.
    - unfold wclientStep in Hs. destruct (wClients s !! k) as [c|] eqn:Hc; [|done]. cbn [mbind option_bind] in Hs.
      destruct (Forall_lookup_1 _ _ _ _ Cs Hc) as [call Hok]. destruct (wActs c) as [|a acts] eqn:Ea.
      + destruct (wCalls c) as [|c0 cs]; [done|]. injection Hs as <-. split; cbn [wClients wProcs wNet wWork]; rewrite ?insert_length; try done.
        apply Forall_insert; [done|]. by exists c0.
      + pose proof (suffix_cons_tl _ _ _ Hok) as Htl. destruct a as [a|id data|id| | |].
        * destruct (pSt _ _ _) as [[[p net'] log']|] eqn:Hst; [|done]. cbn [mbind option_bind] in Hs. injection Hs as <-.
          destruct (pipe_acts _ _ _ _ _ _ _ _ _ _ Hok Ne Hst) as [H1 H2].
          split; cbn [wClients wProcs wNet wWork]; rewrite ?insert_length; try done. by apply Forall_insert.
        * destruct (wWork s !! _) as [[]|]; try done. injection Hs as <-. split; cbn [wClients wProcs wNet wWork]; rewrite ?insert_length; try done.
          apply Forall_insert; [done|]. by exists call.
        * injection Hs as <-. split; cbn [wClients wProcs wNet wWork]; rewrite ?insert_length; try done. apply Forall_insert; [done|]. by exists call.
        * injection Hs as <-. split; cbn [wClients wProcs wNet wWork]; rewrite ?insert_length; try done. apply Forall_insert; [done|]. by exists call.
        * injection Hs as <-. split; cbn [wClients wProcs wNet wWork]; rewrite ?insert_length; try done. apply Forall_insert; [done|]. by exists call.
        * injection Hs as <-. split; cbn [wClients wProcs wNet wWork]; rewrite ?insert_length; try done. apply Forall_insert; [done|].
          destruct (wOk c && wOk2 c); [by exists call|]. apply loop_rest in Hok as ->. by exists WFlush.
    - unfold wprocStep in Hs. destruct (wProcs s !! k) as [p|] eqn:Hp; [|done]. cbn [mbind option_bind] in Hs.
      destruct (pSt p (wNet s) (wLog s)) as [[[p' net'] log']|] eqn:Hst; [|done]. cbn [mbind option_bind] in Hs. injection Hs as <-.
      destruct (Forall_lookup_1 _ _ _ _ Ps Hp) as [Hok Hch].
      destruct (procStep_ok murmur n only reqsFirst cap Hn _ _ _ _ _ _ Hok Ne Hst) as [Hok' Hnet'].
      pose proof (procStep_chan murmur n only reqsFirst cap _ _ _ _ _ _ Hst) as Ech.
      split; cbn [wClients wProcs wNet wWork]; rewrite ?insert_length; try done.
      + apply Forall_insert; [done|]. split; [done|]. by rewrite Ech.
      + intros ch Hcs. destruct (Wk ch Hcs) as (j & q & Hq & Hqc). destruct (decide (j = k)) as [->|].
        * exists k, p'. rewrite list_lookup_insert by (by eapply lookup_lt_Some). split; [done|]. rewrite Ech. congruence.
        * exists j, q. by rewrite list_lookup_insert_ne.
    - unfold wstoreStep, workerStep in Hs. cbn in Hs. destruct (wWork s !! j) as [[]|]; try done; injection Hs as <-;
        split; cbn [wClients wProcs wNet wWork ssWork]; rewrite ?insert_length; done.
    - unfold wstoreStep, delStep in Hs. cbn in Hs. destruct (wDels s !! k) as [id|]; try done; injection Hs as <-;
        split; cbn [wClients wProcs wNet wWork ssWork]; done.
  Qed.
  Lemma winv_init nseg progs : (1 <= nseg)%nat → winv (length progs) (nseg + 4 * Z.to_nat n) (wholeInit n nS nseg progs).
  Proof.
    intros Hs. destruct (linv_init n reqsFirst Hn nseg [] Hs) as [L P Ne Wk]. split; cbn [wholeInit wClients wProcs wNet wWork].
    - by rewrite fmap_length.
    - rewrite L. done.
    - by rewrite replicate_length.
    - apply Forall_fmap, Forall_true. intros cs. exists WFlush. apply suffix_nil.
    - apply Forall_and. split; [done|]. cbn. apply Forall_app. split; [by apply Forall_replicate|].
      apply Forall_join, Forall_fmap, Forall_true. intros i. by repeat constructor.
    - constructor.
    - done.
  Qed.

  (** * Remaining work *)
  Notation wact := (ProofLive.wact murmur n only).
  Notation wproc := (ProofLive.wproc murmur n only reqsFirst).
  Notation wnet := (ProofLive.wnet murmur n only).
  Definition wwact (a : ModelWhole.wact) : nat :=
    match a with WPipe a => wact a | WSend _ _ => 3 | WSpawn _ => 2 | WLoop => 1 | WRead | WCmp => 0 end%nat.
  Definition wwacts (l : list ModelWhole.wact) : nat := sum_list (wwact <$> l).
  Definition wcl (c : wclient) : nat := (wwacts (wActs c) + sum_list ((λ c, S (wwacts (wcallA c))) <$> wCalls c))%nat.
  Definition wwk (w : sworker) : nat := match w with WIdle => 0 | WHold _ _ => 2 | WWritten => 1 end%nat.
  Definition wwork (s : wstate) : nat :=
    (sum_list (wcl <$> wClients s) + sum_list (wproc <$> wProcs s) + wnet (wNet s) + sum_list (wwk <$> wWork s) + length (wDels s))%nat.

  Lemma sum_ins {A} (f : A → nat) (l : list A) k x x' : l !! k = Some x →
    ∃ r, sum_list (f <$> l) = (f x + r)%nat ∧ sum_list (f <$> <[k:=x']> l) = (f x' + r)%nat.
  Proof.
    intros Hp. exists (sum_list (f <$> take k l) + sum_list (f <$> drop (S k) l))%nat. split.
    - rewrite <- (take_drop_middle _ _ _ Hp) at 1. rewrite fmap_app, sum_list_app. cbn. lia.
    - rewrite insert_take_drop by (by eapply lookup_lt_Some). rewrite fmap_app, sum_list_app. cbn. lia.
  Qed.
  Lemma wwacts_app l1 l2 : wwacts (l1 ++ l2) = (wwacts l1 + wwacts l2)%nat.
  Proof. unfold wwacts. by rewrite fmap_app, sum_list_app. Qed.
  Lemma wwacts_cons a l : wwacts (a :: l) = (wwact a + wwacts l)%nat.
  Proof. done. Qed.
  Lemma wwacts_pipe l : wwacts (WPipe <$> l) = wacts murmur n only l.
  Proof. unfold wwacts, wacts. by rewrite <- list_fmap_compose. Qed.
  Lemma wwacts_loop1 : wwacts wloop1 = 1%nat.
  Proof. unfold wLoop1, waitActs. by destruct reqsFirst. Qed.

  Lemma wcl_mk cs l r ok r2 ok2 : wcl (mkWC cs l r ok r2 ok2) = (wwacts l + sum_list ((λ c, S (wwacts (wcallA c))) <$> cs))%nat.
  Proof. done. Qed.

  (** Everything except the clients is the same. *)
  Definition same_but (s s0 : wstate) : Prop :=
    wProcs s0 = wProcs s ∧ wNet s0 = wNet s ∧ wLog s0 = wLog s ∧ wWork s0 = wWork s ∧ wDels s0 = wDels s ∧ wSLog s0 = wSLog s.
  (** Clients whose next step is not a turn of a waiting loop *)
  Definition wprod (c : wclient) : Prop :=
    match wActs c with
    | WPipe FLoop2 :: _ => wOk c = true
    | WLoop :: _ => wOk c = true ∧ wOk2 c = true
    | a :: _ => plainW a = false
    | [] => True
    end.
  Lemma wwork_client k s s' c : wmv (WMClient k) s = Some s' → wClients s !! k = Some c → okc c →
    (wwork s' < wwork s)%nat ∨
    (¬ wprod c ∧ ∃ c', s' = mkWS (<[k := c']> (wClients s)) (wProcs s) (wNet s) (wLog s) (wWork s) (wDels s) (wSLog s) ∧ wcl c' = wcl c).
  Proof.
    intros Hs Hc [call Hok]. cbn [wmoveStep] in Hs. unfold wclientStep in Hs. rewrite Hc in Hs. cbn [mbind option_bind] in Hs.
    assert (Hsum : ∀ c', ∃ r, sum_list (wcl <$> wClients s) = (wcl c + r)%nat ∧ sum_list (wcl <$> <[k:=c']> (wClients s)) = (wcl c' + r)%nat)
      by (intros; by apply sum_ins).
    unfold wprod. destruct (wActs c) as [|a acts] eqn:Ea.
    - destruct (wCalls c) as [|c0 cs] eqn:Ec; [done|]. injection Hs as <-. left. unfold wwork. cbn [wClients wProcs wNet wWork wDels].
      edestruct Hsum as (r & -> & ->). unfold wcl. cbn [wActs wCalls]. rewrite Ea, Ec. cbn. lia.
    - destruct a as [a|id data|id| | |].
      + destruct (pSt _ _ _) as [[[p net'] log']|] eqn:Hst; [|done]. cbn [mbind option_bind] in Hs.
        pose proof (pSt_work murmur n only reqsFirst cap Hn _ _ _ _ _ _ Hst) as Hw. unfold ProofLive.wproc in Hw. cbn [pActs pCalls fmap list_fmap] in Hw.
        change (sum_list []) with 0%nat in Hw. rewrite wacts_cons in Hw. change (wacts murmur n only []) with 0%nat in Hw.
        assert (Ep : pCalls p = []) by (unfold procStep in Hst; cbn in Hst; destruct a; try (destruct (decide _); [|done]); by injection Hst as <- _ _).
        rewrite Ep in Hw. change (sum_list ((λ c, S (wacts murmur n only (callA c))) <$> [])) with 0%nat in Hw.
        destruct Hw as [Hw|(Hnp & Hw & -> & ->)]; injection Hs as <-.
        * left. unfold wwork. cbn [wClients wProcs wNet wWork wDels].
          edestruct Hsum as (r & -> & ->). unfold wcl. cbn [wActs wCalls]. rewrite Ea, wwacts_app, wwacts_pipe, wwacts_cons. cbn [wwact]. lia.
        * right. assert (Hre : reqEvent a = []) by (destruct a; done). split.
          { intros H. apply Hnp. unfold productive. cbn. destruct a; try done. by apply no_loop1 in Hok. }
          eexists. split; [by rewrite Hre, app_nil_r|]. unfold wcl. cbn [wActs wCalls]. rewrite Ea, wwacts_app, wwacts_pipe, wwacts_cons. cbn [wwact]. lia.
      + destruct (wWork s !! _) as [[]|] eqn:Ew; try done. injection Hs as <-. left. unfold wwork. cbn [wClients wProcs wNet wWork wDels].
        edestruct Hsum as (r & -> & ->). edestruct (sum_ins wwk (wWork s)) as (r2 & -> & ->); [exact Ew|]. unfold wcl. cbn [wActs wCalls]. rewrite Ea, wwacts_cons. cbn. lia.
      + injection Hs as <-. left. unfold wwork. cbn [wClients wProcs wNet wWork wDels]. edestruct Hsum as (r & -> & ->).
        unfold wcl. cbn [wActs wCalls]. rewrite Ea, wwacts_cons, app_length. cbn. lia.
      + injection Hs as <-. right. split; [done|]. eexists. split; [done|]. unfold wcl. cbn [wActs wCalls]. by rewrite Ea, wwacts_cons.
      + injection Hs as <-. right. split; [done|]. eexists. split; [done|]. unfold wcl. cbn [wActs wCalls]. by rewrite Ea, wwacts_cons.
      + injection Hs as <-. destruct (wOk c) eqn:E1, (wOk2 c) eqn:E2; cbn [andb].
        * left. unfold wwork. cbn [wClients wProcs wNet wWork wDels]. edestruct Hsum as (r & -> & ->). unfold wcl. cbn [wActs wCalls]. rewrite Ea, wwacts_cons. cbn. lia.
        * right. split; [by intros [? ?]|]. exists (mkWC (wCalls c) (wloop1 ++ acts) (wReg c) true (wReg2 c) true). split; [reflexivity|]. rewrite wcl_mk, wwacts_app, wwacts_loop1. unfold wcl. by rewrite Ea, wwacts_cons.
        * right. split; [by intros [? ?]|]. exists (mkWC (wCalls c) (wloop1 ++ acts) (wReg c) true (wReg2 c) true). split; [reflexivity|]. rewrite wcl_mk, wwacts_app, wwacts_loop1. unfold wcl. by rewrite Ea, wwacts_cons.
        * right. split; [by intros [? ?]|]. exists (mkWC (wCalls c) (wloop1 ++ acts) (wReg c) true (wReg2 c) true). split; [reflexivity|]. rewrite wcl_mk, wwacts_app, wwacts_loop1. unfold wcl. by rewrite Ea, wwacts_cons.
  Qed.
  Lemma wwork_other nc np m s s' : winv nc np s → wmv m s = Some s' → (∀ k, m ≠ WMClient k) → (wwork s' < wwork s)%nat.
  Proof.
    intros Hi Hs Hm. destruct m as [k|k|j|k]; cbn [wmoveStep] in Hs.
    - by destruct (Hm k).
    - unfold wprocStep in Hs. destruct (wProcs s !! k) as [p|] eqn:Hp; [|done]. cbn [mbind option_bind] in Hs.
      destruct (pSt p (wNet s) (wLog s)) as [[[p' net'] log']|] eqn:Hst; [|done]. cbn [mbind option_bind] in Hs. injection Hs as <-.
      unfold wwork. cbn [wClients wProcs wNet wWork wDels]. edestruct (sum_ins wproc (wProcs s)) as (r & -> & ->); [exact Hp|].
      destruct (pSt_work murmur n only reqsFirst cap Hn _ _ _ _ _ _ Hst) as [Hw|(Hnp & _)]; [lia|]. exfalso. apply Hnp.
      destruct (Forall_lookup_1 _ _ _ _ (wi_procs _ _ _ Hi) Hp) as [Hok Hch]. unfold ProofLive.okp in Hok. unfold productive.
      destruct (pChan p) as [ch|]; [|done]. destruct (pActs p) as [|a l]; [done|].
      destruct ch; destruct Hok as [_ HF]; apply Forall_cons in HF as [HF _]; by destruct a.
    - unfold wstoreStep, workerStep in Hs. cbn in Hs. destruct (wWork s !! j) as [w|] eqn:Ew; [|done]. destruct w; try done; injection Hs as <-;
        unfold wwork; cbn [wClients wProcs wNet wWork wDels ssWork ssDels]; edestruct (sum_ins wwk (wWork s)) as (r2 & -> & ->); [exact Ew| |exact Ew|]; cbn; lia.
    - unfold wstoreStep, delStep in Hs. cbn in Hs. destruct (wDels s !! k) as [id|] eqn:Ed; try done; injection Hs as <-.
      unfold wwork; cbn [wClients wProcs wNet wWork wDels ssWork ssDels]. rewrite length_delete by by eexists. apply lookup_lt_Some in Ed. lia.
  Qed.

  (** * Executions *)
  Notation aft := (wafter wmv).
  Notation fairw nc np := (wfair nc np (Z.to_nat nS)).
  Definition fm (nc np : nat) (m : wmove) : Prop :=
    (∃ k, m = WMClient k ∧ (k < nc)%nat) ∨ (∃ k, m = WMProc k ∧ (k < np)%nat) ∨
    (∃ j, m = WMWorker j ∧ (j < Z.to_nat nS)%nat) ∨ m = WMDel 0.
  Lemma wafter_add ms s i j : aft ms s (i + j) = aft (λ x, ms (i + x)%nat) (aft ms s i) j.
  Proof. induction j as [|j IH]; [by rewrite Nat.add_0_r|]. rewrite Nat.add_succ_r. cbn [wafter]. by rewrite IH. Qed.
  Lemma wfair_shift nc np nw ms i : wfair nc np nw ms → wfair nc np nw (λ x, ms (i + x)%nat).
  Proof.
    intros H m Hm t. destruct (H m Hm (i + t)%nat) as (j & Hj & E). exists (j - i)%nat. split; [lia|]. rewrite <- E. f_equal. lia.
  Qed.
  Lemma winv_after nc np ms s i : winv nc np s → winv nc np (aft ms s i).
  Proof.
    intros H. induction i as [|i IH]; [done|]. cbn. unfold wturn. destruct (wmv (ms i) _) eqn:E; [by eapply winv_step|done].
  Qed.
  Definition agree (m : wmove) (s s0 : wstate) : Prop :=
    same_but s s0 ∧ ∀ k, m = WMClient k → wClients s0 !! k = wClients s !! k.
  Lemma agree_enabled m s s0 : agree m s s0 → is_Some (wmv m s) → is_Some (wmv m s0).
  Proof.
    intros [(E1 & E2 & E3 & E4 & E5 & E6) Hk] [s' Hs]. destruct m as [k|k|j|k]; cbn [wmoveStep] in *.
    - unfold wclientStep in *. rewrite (Hk k eq_refl), E2, E3, E4. destruct (wClients s !! k) as [c|]; [|done]. cbn [mbind option_bind] in *.
      destruct (wActs c) as [|a acts].
      + destruct (wCalls c); [done|]. by eexists.
      + destruct a as [a|id data|id| | |]; try by eexists.
        * destruct (pSt _ _ _) as [[[p net'] log']|]; [|done]. by eexists.
        * destruct (wWork s !! _) as [[]|]; first [done|by eexists].
    - unfold wprocStep in *. rewrite E1, E2, E3. destruct (wProcs s !! k) as [p|]; [|done]. cbn [mbind option_bind] in *.
      destruct (pSt _ _ _) as [[[p' net'] log']|]; [|done]. by eexists.
    - unfold wstoreStep in *. rewrite E4, E5, E6. destruct (workerStep _ _ _ _) as [t|]; [|done]. by eexists.
    - unfold wstoreStep in *. rewrite E4, E5, E6. destruct (delStep _ _) as [t|]; [|done]. by eexists.
  Qed.
  Lemma wwork_any nc np m s s' : winv nc np s → wmv m s = Some s' →
    (wwork s' < wwork s)%nat ∨ ∃ k c c', m = WMClient k ∧ wClients s !! k = Some c ∧ wwork s' = wwork s ∧
      s' = mkWS (<[k := c']> (wClients s)) (wProcs s) (wNet s) (wLog s) (wWork s) (wDels s) (wSLog s).
  Proof.
    intros Hi Hs. destruct m as [k|k|j|k]; [|left; by eapply wwork_other..].
    assert (Hc : ∃ c, wClients s !! k = Some c).
    { cbn [wmoveStep] in Hs. unfold wclientStep in Hs. destruct (wClients s !! k) as [c|]; [by exists c|done]. }
    destruct Hc as [c Hc]. destruct (wwork_client _ _ _ _ Hs Hc (Forall_lookup_1 _ _ _ _ (wi_clients _ _ _ Hi) Hc)) as [H|(_ & c' & -> & Hw)]; [by left|].
    right. exists k, c, c'. do 2 (split; [done|]). split; [|done]. unfold wwork. cbn [wClients wProcs wNet wWork wDels].
    edestruct (sum_ins wcl (wClients s)) as (r & -> & ->); [exact Hc|]. by rewrite Hw.
  Qed.

  Lemma wuntil nc np m s ms : winv nc np s → fairw nc np ms → fm nc np m → is_Some (wmv m s) →
    ∃ j, (wwork (aft ms s j) < wwork s)%nat ∨
      ∃ s0, winv nc np s0 ∧ agree m s s0 ∧ wwork s0 = wwork s ∧ wmv m s0 = Some (aft ms s j).
  Proof.
    intros Hi Hf Hm He. destruct (Hf m Hm 0%nat) as (j0 & _ & Hj0).
    assert (H : ∀ i, (i <= j0)%nat → (∃ j, (wwork (aft ms s j) < wwork s)%nat ∨
      ∃ s0, winv nc np s0 ∧ agree m s s0 ∧ wwork s0 = wwork s ∧ wmv m s0 = Some (aft ms s j)) ∨
      (agree m s (aft ms s i) ∧ wwork (aft ms s i) = wwork s)).
    { induction i as [|i IH]; intros Hle; [by right|].
      destruct IH as [H|[H1 H2]]; [lia|by left|]. pose proof (winv_after nc np ms s i Hi) as Hi0. set (s0 := aft ms s i) in *.
      assert (Hm' : ms i = m ∨ ms i ≠ m).
      { clear. destruct (ms i) as [a|a|a|a], m as [b|b|b|b]; try (right; discriminate); (destruct (decide (a = b)) as [->|]; [by left|right; congruence]). }
      destruct Hm' as [E|E].
      - left. exists (S i). right. exists s0. do 3 (split; [done|]). cbn. fold s0. rewrite E. unfold wturn.
        destruct (agree_enabled _ _ _ H1 He) as [s1 Hs1]. by rewrite Hs1.
      - destruct (wmv (ms i) s0) as [s1|] eqn:Es.
        + assert (E1 : aft ms s (S i) = s1) by (cbn; fold s0; unfold wturn; by rewrite Es).
          destruct (wwork_any _ _ _ _ _ Hi0 Es) as [Hw|(k & c & c' & Ek & Hc & Hw & ->)].
          * left. exists (S i). left. rewrite E1. lia.
          * right. rewrite E1, Hw. split; [|done]. destruct H1 as [H1 H1']. split; [exact H1|]. cbn [wClients].
            intros k' ->. rewrite Ek in E. rewrite list_lookup_insert_ne by congruence. by apply H1'.
        + right. assert (E1 : aft ms s (S i) = s0) by (cbn; fold s0; unfold wturn; by rewrite Es). by rewrite E1. }
    destruct (H j0) as [?|[H1 H2]]; [lia|done|]. exists (S j0). right. exists (aft ms s j0). split; [by apply winv_after|].
    do 2 (split; [done|]). cbn. rewrite Hj0. unfold wturn. destruct (agree_enabled _ _ _ H1 He) as [s1 Hs1]. by rewrite Hs1.
  Qed.

  Definition decreasesw (nc np : nat) (s : wstate) : Prop := ∀ ms, fairw nc np ms → ∃ j, (wwork (aft ms s j) < wwork s)%nat.

  Lemma dec_other nc np m s : winv nc np s → fm nc np m → (∀ k, m ≠ WMClient k) → is_Some (wmv m s) → decreasesw nc np s.
  Proof.
    intros Hi Hm Hk He ms Hf. destruct (wuntil nc np m s ms Hi Hf Hm He) as (j & [H|(s0 & H1 & H2 & H3 & H4)]); [by exists j|].
    exists j. rewrite <- H3. by eapply wwork_other.
  Qed.
  Lemma fm_client nc np k s c : winv nc np s → wClients s !! k = Some c → fm nc np (WMClient k).
  Proof. intros Hi Hc. left. exists k. split; [done|]. rewrite <- (wi_c _ _ _ Hi). by eapply lookup_lt_Some. Qed.
  Lemma dec_client nc np k s c : winv nc np s → wClients s !! k = Some c → wprod c → is_Some (wmv (WMClient k) s) → decreasesw nc np s.
  Proof.
    intros Hi Hc Hp He ms Hf. destruct (wuntil nc np (WMClient k) s ms Hi Hf) as (j & [H|(s0 & H1 & [H2 H2'] & H3 & H4)]); [by eapply fm_client|done|by exists j|].
    exists j. rewrite <- H3. specialize (H2' k eq_refl). rewrite Hc in H2'.
    destruct (wwork_client _ _ _ _ H4 H2' (Forall_lookup_1 _ _ _ _ (wi_clients _ _ _ H1) H2')) as [H|[Hnp _]]; [done|by destruct Hnp].
  Qed.
  Definition setc (k : nat) (c : wclient) (s : wstate) : wstate :=
    mkWS (<[k := c]> (wClients s)) (wProcs s) (wNet s) (wLog s) (wWork s) (wDels s) (wSLog s).
  Lemma dec_wspin nc np k s c c' : winv nc np s → wClients s !! k = Some c →
    (∀ s0, same_but s s0 → wClients s0 !! k = Some c → wmv (WMClient k) s0 = Some (setc k c' s0)) →
    (∀ s1, winv nc np s1 → same_but s s1 → wClients s1 !! k = Some c' → wwork s1 = wwork s → decreasesw nc np s1) →
    decreasesw nc np s.
  Proof.
    intros Hi Hc Hst Hnext ms Hf. destruct (wuntil nc np (WMClient k) s ms Hi Hf) as (j & [H|(s0 & H1 & [H2 H2'] & H3 & H4)]); [by eapply fm_client| |by exists j|].
    { eexists. apply Hst; [done|done]. }
    destruct (wwork_any _ _ _ _ _ H1 H4) as [Hw|(_ & _ & _ & _ & _ & Hw & _)]; [exists j; lia|].
    specialize (H2' k eq_refl). rewrite Hc in H2'. rewrite (Hst s0 H2 H2') in H4. injection H4 as H4.
    destruct (Hnext (aft ms s j)) with (ms := λ x, ms (j + x)%nat) as [j' Hj'].
    - by apply winv_after.
    - rewrite <- H4. exact H2.
    - rewrite <- H4. cbn. apply list_lookup_insert. by eapply lookup_lt_Some.
    - lia.
    - by apply wfair_shift.
    - exists (j + j')%nat. rewrite wafter_add. lia.
  Qed.

  (** * The waiting loops of Flush, when nothing is in flight *)
  Definition wclean (s : wstate) : Prop := ProofLive.clean n (wLog s) ∧ value (wLog s) NumIndexingReqs = numStored (wSLog s).
  Definition cnd := wstate → wclient → Prop.
  Definition wexits (nc np k : nat) (l : list ModelWhole.wact) (cond : cnd) : Prop :=
    ∀ s c, winv nc np s → wclean s → wClients s !! k = Some c → wActs c = l → cond s c → decreasesw nc np s.
  Definition stable (cond : cnd) : Prop := ∀ s s0 c, same_but s s0 → cond s c → cond s0 c.
  Notation fst_ := (ProofLive.fstep n).
  Definition wnext (s : wstate) (c : wclient) (a : ModelWhole.wact) (l : list ModelWhole.wact) : wclient :=
    match a with
    | WPipe a => mkWC (wCalls c) l (fst_ (wLog s) a (wReg c) (wOk c)).1 (fst_ (wLog s) a (wReg c) (wOk c)).2 (wReg2 c) (wOk2 c)
    | WRead => mkWC (wCalls c) l (wReg c) (wOk c) (if reqsFirst2 then value (wLog s) NumIndexingReqs else numStored (wSLog s)) (wOk2 c)
    | WCmp => mkWC (wCalls c) l (wReg c) (wOk c) (wReg2 c) (wReg2 c =? if reqsFirst2 then numStored (wSLog s) else value (wLog s) NumIndexingReqs)
    | _ => c
    end.
  Lemma wclean_same s s0 : same_but s s0 → wclean s → wclean s0.
  Proof. intros (E1 & E2 & E3 & E4 & E5 & E6). unfold wclean. by rewrite E3, E6. Qed.
  Lemma exits_plainW nc np k a l (cond cond' : cnd) : plainW a = true → stable cond' → wexits nc np k l cond' →
    (∀ s c, wclean s → cond s c → cond' s (wnext s c a l)) → wexits nc np k (a :: l) cond.
  Proof.
    intros Ha Hst He Hc s c Hi Hcl Hk Hl Hco.
    apply (dec_wspin nc np k s c (wnext s c a l) Hi Hk).
    - intros s0 (E1 & E2 & E3 & E4 & E5 & E6) Hk0. cbn [wmoveStep]. unfold wclientStep. rewrite Hk0. cbn [mbind option_bind]. rewrite Hl.
      destruct a as [a| | | | |]; try done; unfold setc, wnext; rewrite <- ?E3, <- ?E6; [|done..].
      destruct a; try done; cbn; by rewrite app_nil_r.
    - intros s1 Hi1 Hs1 Hk1 _. eapply He; [done|by eapply wclean_same|exact Hk1| |].
      + by destruct a as [a| | | | |].
      + eapply Hst; [exact Hs1|]. by apply Hc.
  Qed.
  Definition anyw : cnd := λ _ _, True.
  Definition ok1 : cnd := λ _ c, wOk c = true.
  Definition okw : cnd := λ _ c, wOk c = true ∧ wOk2 c = true.
  Lemma stable_any : stable anyw. Proof. intros s s0 c _ H. exact H. Qed.
  Lemma stable_ok1 : stable ok1. Proof. intros s s0 c _ H. exact H. Qed.
  Lemma stable_okw : stable okw. Proof. intros s s0 c _ H. exact H. Qed.
  Lemma exits_anyW nc np k l1 l2 : Forall (λ a, plainW a = true) l1 → wexits nc np k l2 anyw → wexits nc np k (l1 ++ l2) anyw.
  Proof. induction 1 as [|a l Ha HF IH]; [done|]. intros H2. cbn. by eapply exits_plainW; [done|apply stable_any|apply IH|]. Qed.
  Lemma exits_loop_ok nc np k l : wexits nc np k (WLoop :: l) okw.
  Proof.
    intros s c Hi _ Hk Hl [H1 H2]. eapply dec_client; [done|done| |].
    - unfold wprod. by rewrite Hl.
    - cbn [wmoveStep]. unfold wclientStep. rewrite Hk. cbn [mbind option_bind]. rewrite Hl. by eexists.
  Qed.
  Lemma exits_loop2_ok nc np k l : wexits nc np k (WPipe FLoop2 :: l) ok1.
  Proof.
    intros s c Hi _ Hk Hl H1. unfold ok1 in H1. eapply dec_client; [done|done| |].
    - unfold wprod. by rewrite Hl.
    - cbn [wmoveStep]. unfold wclientStep. rewrite Hk. cbn [mbind option_bind]. rewrite Hl. by eexists.
  Qed.
  Lemma exits_cmpW nc np k a b l (cond : cnd) : stable cond → (∀ s c, cond s c → wOk c = true) →
    (∀ s c c', wOk c = true → wOk c' = true → wOk2 c' = wOk2 c → cond s c → cond s c') →
    wexits nc np k l cond → (∀ log, ProofLive.clean n log → readVal n log a = value log b) →
    wexits nc np k (WPipe (FRead a) :: WPipe (FCmp b) :: l) cond.
  Proof.
    intros Hst Hok Hdep H Hc.
    eapply (exits_plainW _ _ _ _ _ _ (λ s c, cond s c ∧ wReg c = readVal n (wLog s) a)); [done| | |].
    - intros s s0 c Hs [H1 H2]. split; [by eapply Hst|]. destruct Hs as (_ & _ & E & _). by rewrite E.
    - eapply exits_plainW; [done|exact Hst|exact H|]. intros s c [Hcl _] [H1 H2]. cbn.
      eapply (Hdep s c); [by eapply Hok|cbn|done|done]. rewrite (Hok s c H1), H2. cbn. by apply Z.eqb_eq, Hc.
    - intros s c _ H1. cbn. split; [|done]. eapply (Hdep s c); [by eapply Hok|cbn; by eapply Hok|done|done].
  Qed.
  Lemma exits_loop1W nc np k l : wexits nc np k (wloop1 ++ l) anyw.
  Proof.
    unfold wLoop1, waitActs. rewrite <- app_assoc, fmap_app, <- app_assoc. cbn [fmap list_fmap app]. eapply (exits_plainW _ _ _ _ _ _ ok1); [done|apply stable_ok1| |done].
    assert (H0 : wexits nc np k (WRead :: WCmp :: WLoop :: l) ok1).
    { eapply (exits_plainW _ _ _ _ _ _ (λ s c, wOk c = true ∧ wReg2 c = value (wLog s) NumIndexingReqs)); [done| | |].
      - intros s s0 c (_ & _ & E & _) [H1 H2]. by rewrite E.
      - eapply (exits_plainW _ _ _ _ _ _ okw); [done|apply stable_okw|apply exits_loop_ok|]. intros s c [_ Hcl] [H1 H2]. split; [done|]. cbn.
        rewrite H2. apply Z.eqb_eq. by destruct reqsFirst2.
      - intros s c [_ Hcl] H1. split; [done|]. cbn. by destruct reqsFirst2. }
    assert (H2 : wexits nc np k (WPipe (FRead NumRemovingReqs) :: WPipe (FCmp NumDocsRemoved) :: WRead :: WCmp :: WLoop :: l) ok1).
    { apply exits_cmpW; [apply stable_ok1|done|done|apply H0|]. intros log (_ & H & _). exact H. }
    destruct reqsFirst; cbn [app]; (apply exits_cmpW; [apply stable_ok1|done|done|exact H2|]); intros log (H & _ & _); [exact H|by symmetry].
  Qed.
  Lemma exits_loop2W nc np k l : wexits nc np k ((WPipe <$> flushLoop2) ++ l) anyw.
  Proof.
    unfold flushLoop2. cbn [fmap list_fmap app]. eapply (exits_plainW _ _ _ _ _ _ ok1); [done|apply stable_ok1| |done].
    apply exits_cmpW; [apply stable_ok1|done|done|apply exits_loop2_ok|]. intros log (_ & _ & H). exact H.
  Qed.
  Lemma exits_wloop nc np k l : wexits nc np k (WLoop :: l) anyw.
  Proof.
    intros s c Hi Hcl Hk Hl _. destruct (wOk c && wOk2 c) eqn:E; [apply andb_true_iff in E as [? ?]; by eapply exits_loop_ok|].
    apply (dec_wspin nc np k s c (mkWC (wCalls c) (wloop1 ++ l) (wReg c) true (wReg2 c) true) Hi Hk).
    - intros s0 Hs0 Hk0. cbn [wmoveStep]. unfold wclientStep. rewrite Hk0. cbn [mbind option_bind]. rewrite Hl, E. done.
    - intros s1 Hi1 Hs1 Hk1 _. by eapply exits_loop1W; [done|by eapply wclean_same|exact Hk1| |].
  Qed.
  Lemma exits_wloop2 nc np k : wexits nc np k [WPipe FLoop2] anyw.
  Proof.
    intros s c Hi Hcl Hk Hl _. destruct (wOk c) eqn:E; [by eapply exits_loop2_ok|].
    apply (dec_wspin nc np k s c (mkWC (wCalls c) ((WPipe <$> flushLoop2) ++ []) (wReg c) true (wReg2 c) (wOk2 c)) Hi Hk).
    - intros s0 Hs0 Hk0. cbn [wmoveStep]. unfold wclientStep. rewrite Hk0. cbn [mbind option_bind]. rewrite Hl, E. cbn. unfold setc. by rewrite app_nil_r.
    - intros s1 Hi1 Hs1 Hk1 _. by eapply exits_loop2W; [done|by eapply wclean_same|exact Hk1| |].
  Qed.
  Lemma wflush_exits nc np k a l c : is_wf a = true → a :: l `suffix_of` wcallA c → wexits nc np k (a :: l) anyw.
  Proof.
    intros Ha Hc. destruct (wf_positions _ _ _ Ha Hc) as [_ [(p & -> & HF)|(p & -> & HF)]]; (apply exits_anyW; [done|]).
    - apply exits_wloop.
    - apply exits_wloop2.
  Qed.

  (** * The store's counters *)
  Definition sb (a : ModelWhole.wact) : Z :=
    match a with WSend _ _ => 1 | WPipe (ADo (EvInc NumIndexingReqs)) => -1 | _ => 0 end.
  Definition sbal (l : list ModelWhole.wact) : Z := zsum (sb <$> l).
  Definition busy (w : sworker) : Z := match w with WIdle => 0 | _ => 1 end.
  Lemma sbal_app l1 l2 : sbal (l1 ++ l2) = sbal l1 + sbal l2.
  Proof. unfold sbal. by rewrite fmap_app, zsum_app. Qed.
  Lemma sbal_cons a l : sbal (a :: l) = sb a + sbal l.
  Proof. done. Qed.
  Lemma sbal_none l : Forall (λ a, sb a = 0) l → sbal l = 0.
  Proof. induction 1 as [|a l Ha _ IH]; [done|]. rewrite sbal_cons. lia. Qed.
  Lemma sbal_loop1 : sbal wloop1 = 0.
  Proof. unfold wLoop1, waitActs. by destruct reqsFirst. Qed.
  Lemma sbal_tail : sbal wtail = 0.
  Proof. done. Qed.
  Lemma sbal_call c : sbal (wcallA c) = 0.
  Proof.
    destruct c as [d data f|id f|]; cbn [wcallActs pipeCall callActs]; rewrite sbal_app.
    - unfold indexActs, incs. destruct (seqb (DocId d) "0"), f; done.
    - rewrite fmap_app, sbal_app. rewrite (sbal_none (WPipe <$> mjoin _)).
      + unfold incs. destruct (seqb id "0"), f; done.
      + apply Forall_fmap, Forall_join, Forall_fmap, Forall_true. intros i. cbn. destruct (seqb id "0"); by repeat constructor.
    - by rewrite sbal_loop1.
  Qed.
  Lemma zsum_ins {A} (f : A → Z) (l : list A) k x x' : l !! k = Some x →
    zsum (f <$> <[k:=x']> l) = zsum (f <$> l) - f x + f x'.
  Proof.
    intros Hp. rewrite <- (take_drop_middle _ _ _ Hp) at 2. rewrite insert_take_drop by (by eapply lookup_lt_Some).
    rewrite !fmap_app, !zsum_app, !fmap_cons. cbn [zsum foldr]. unfold zsum. lia.
  Qed.
  Definition sbal_inv (s : wstate) : Prop :=
    numReqs (wSLog s) = numStored (wSLog s) + zsum (busy <$> wWork s) + zsum ((λ c, sbal (wActs c)) <$> wClients s).
  Lemma pst_sbal a reg ok net log p net' log' : pSt (mkProc None [] [a] reg ok) net log = Some (p, net', log') → sbal (WPipe <$> pActs p) = 0.
  Proof.
    intros H. unfold procStep in H. cbn [pActs] in H. destruct a as [e|ch m| |ct|ct| |]; cbn zeta in H; [|destruct (decide _); [|done]|..]; injection H as <- <- <-; try done.
    - destruct ok; [done|]. cbn [pActs]. rewrite app_nil_r. unfold flushLoop1. by destruct reqsFirst.
    - by destruct ok.
  Qed.
  Lemma req_sb a log : numReqs (log ++ reqEvent a) = numReqs log - sb (WPipe a) ∧ numStored (log ++ reqEvent a) = numStored log.
  Proof. destruct a as [[[]| |]| | | | | |]; cbn [reqEvent sb]; rewrite ?app_nil_r, ?nreqs_snoc, ?nstored_snoc; cbn [isReq isStored]; lia. Qed.
  Lemma sbal_step m s s' : wmv m s = Some s' → sbal_inv s → sbal_inv s'.
  Proof.
    intros Hs HB. unfold sbal_inv in *. destruct m as [k|k|j|k]; cbn [wmoveStep] in Hs.
    - unfold wclientStep in Hs. destruct (wClients s !! k) as [c|] eqn:Hc; [|done]. cbn [mbind option_bind] in Hs.
      destruct (wActs c) as [|a acts] eqn:Ea.
      + destruct (wCalls c) as [|c0 cs]; [done|]. injection Hs as <-. cbn [wClients wWork wSLog].
        rewrite (zsum_ins _ _ _ _ _ Hc). cbn [wActs]. rewrite sbal_call, Ea. change (sbal []) with 0. lia.
      + destruct a as [a|id data|id| | |].
        * destruct (pSt _ _ _) as [[[p net'] log']|] eqn:Hst; [|done]. cbn [mbind option_bind] in Hs.
          apply pst_sbal in Hst. destruct (req_sb a (wSLog s)) as [R1 R2]. injection Hs as <-. cbn [wClients wWork wSLog].
          rewrite (zsum_ins _ _ _ _ _ Hc). cbn [wActs]. rewrite sbal_app, Hst, Ea, sbal_cons, R1, R2. lia.
        * destruct (wWork s !! _) as [w|] eqn:Ew; [|done]. destruct w; try done. injection Hs as <-. cbn [wClients wWork wSLog].
          rewrite (zsum_ins _ _ _ _ _ Hc), (zsum_ins _ _ _ _ _ Ew). cbn [wActs]. rewrite Ea, sbal_cons, nreqs_snoc, nstored_snoc. cbn [isReq isStored busy sb]. lia.
        * injection Hs as <-. cbn [wClients wWork wSLog]. rewrite (zsum_ins _ _ _ _ _ Hc). cbn [wActs]. rewrite Ea, sbal_cons, nreqs_snoc, nstored_snoc. cbn [isReq isStored sb]. lia.
        * injection Hs as <-. cbn [wClients wWork wSLog]. rewrite (zsum_ins _ _ _ _ _ Hc). cbn [wActs]. rewrite Ea, sbal_cons. cbn [sb]. lia.
        * injection Hs as <-. cbn [wClients wWork wSLog]. rewrite (zsum_ins _ _ _ _ _ Hc). cbn [wActs]. rewrite Ea, sbal_cons. cbn [sb]. lia.
        * assert (E : sbal (if wOk c && wOk2 c then acts else wloop1 ++ acts) = sbal acts) by (destruct (_ && _); rewrite ?sbal_app, ?sbal_loop1; done).
          set (l0 := if wOk c && wOk2 c then acts else wloop1 ++ acts) in *. clearbody l0.
          injection Hs as <-. cbn [wClients wWork wSLog]. rewrite (zsum_ins _ _ _ _ _ Hc). cbn [wActs]. rewrite E, Ea, sbal_cons. cbn [sb]. lia.
    - unfold wprocStep in Hs. destruct (wProcs s !! k) as [p|] eqn:Hp; [|done]. cbn [mbind option_bind] in Hs.
      destruct (pSt p (wNet s) (wLog s)) as [[[p' net'] log']|] eqn:Hst; [|done]. cbn [mbind option_bind] in Hs. by injection Hs as <-.
    - unfold wstoreStep, workerStep in Hs. cbn in Hs. destruct (wWork s !! j) as [w|] eqn:Ew; [|done]. destruct w; try done; injection Hs as <-;
        cbn [wClients wWork wSLog ssWork ssLog]; rewrite (zsum_ins _ _ _ _ _ Ew), nreqs_snoc, nstored_snoc; cbn [isReq isStored busy]; [|lia].
      unfold written. repeat case_match; cbn [isReq isStored]; lia.
    - unfold wstoreStep, delStep in Hs. cbn in Hs. destruct (wDels s !! k) as [id|] eqn:Ed; try done; injection Hs as <-;
        cbn [wClients wWork wSLog ssWork ssLog]; rewrite nreqs_snoc, nstored_snoc; cbn [isReq isStored]; lia.
  Qed.
  Lemma sbal_reach nseg progs s : wreach nseg progs s → sbal_inv s.
  Proof.
    intros Hr. unfold whole_reach in Hr. revert s Hr. apply (rtc_ind_r (R := wholeStep murmur n only reqsFirst cap accepts encode nS reqsFirst2) sbal_inv).
    - unfold sbal_inv, wholeInit. cbn [wClients wWork wSLog]. rewrite !zsum_zero; [done|..].
      + intros c (cs & -> & _)%elem_of_list_fmap. done.
      + intros w [-> _]%elem_of_replicate. done.
    - intros y z _ [m Hs]. by apply sbal_step with (m := m).
  Qed.

  (** * Somebody makes progress *)
  Lemma fm_proc nc np k s p : winv nc np s → wProcs s !! k = Some p → fm nc np (WMProc k).
  Proof. intros Hi Hc. right. left. exists k. split; [done|]. rewrite <- (wi_p _ _ _ Hi). by eapply lookup_lt_Some. Qed.
  Lemma dec_proc nc np k s p r : winv nc np s → wProcs s !! k = Some p → pSt p (wNet s) (wLog s) = Some r → decreasesw nc np s.
  Proof.
    intros Hi Hp Hr. apply (dec_other nc np (WMProc k)); [done|by eapply fm_proc|done|]. cbn [wmoveStep]. unfold wprocStep. rewrite Hp. cbn [mbind option_bind].
    rewrite Hr. destruct r as [[? ?] ?]. by eexists.
  Qed.
  Lemma wworker_takes nc np s ch m : winv nc np s → (ch, m) ∈ wNet s →
    (∀ k p, wProcs s !! k = Some p → pChan p = Some ch → pActs p = []) → decreasesw nc np s.
  Proof.
    intros Hi Hin Hidle. pose proof (wi_net _ _ _ Hi) as Hnet. unfold nets in Hnet. rewrite Forall_forall in Hnet. pose proof (Hnet _ Hin) as Hok. cbn in Hok.
    destruct (wi_work _ _ _ Hi ch) as (k & p & Hp & Hc).
    { destruct Hok as [[-> _]|[? _]]; auto. }
    destruct (takeFirst_some _ _ _ Hin) as [[m1 r] Ht]. pose proof (Hidle k p Hp Hc) as Ha.
    eapply (dec_proc nc np k s p); [done|done|]. unfold procStep. rewrite Ha, Hc, Ht. done.
  Qed.
  (** A client with this list of actions is not in the middle of anything that is counted. *)
  Lemma pacts_plain l : Forall (λ a, plainW a = true) l → Forall (λ a, plainF a = true) (pacts l).
  Proof.
    induction 1 as [|a l Ha _ IH]; [constructor|]. change (a :: l) with ([a] ++ l). rewrite ProofWhole.pacts_app. apply Forall_app. split; [|done].
    destruct a; try done; repeat constructor; done.
  Qed.
  Lemma wf_owed pr q a l c : is_wf a = true → a :: l `suffix_of` wcallA c → pActs q = pacts (a :: l) → proc_owed (pW n pr) (pReq pr) (pFin pr) q = 0.
  Proof.
    intros Ha Hc Eq. unfold proc_owed. rewrite Eq.
    destruct (wf_positions _ _ _ Ha Hc) as [_ [(p & -> & HF)|(p & -> & HF)]]; apply pacts_plain in HF; rewrite ProofWhole.pacts_app;
      (assert (H0 : ∀ w fin, zsum (act_owed w fin <$> pacts p) = 0);
       [intros w fin; apply zsum_zero; intros x Hx; rewrite Forall_forall in HF; apply HF in Hx; by destruct x|]);
      rewrite fmap_app, zsum_app, H0.
    - change (pacts (WLoop :: wtail)) with (FLoop1 :: flushTail). destruct pr; [by destruct (not_counted _ _)..|].
      rewrite not_counted_app. cbn. by rewrite orb_true_r.
    - by destruct (not_counted _ _).
  Qed.

  (** What the executions are used for *)
  Definition lst (nseg : nat) (s : wstate) : Prop := ∃ start PR G,
    pipe_reach murmur n only reqsFirst cap nseg G start ∧ Forall (λ p, pActs p = [] ∧ pCalls p = []) PR ∧
    (∀ b, pinv murmur n only reqsFirst cap s b start PR) ∧ cinv s ∧ sbal_inv s.
  Lemma lst_step nseg m s s' : wmv m s = Some s' → lst nseg s → lst nseg s'.
  Proof.
    intros Hm (start & PR & G & H1 & H2 & H3 & H4 & H5). exists start, PR, G. do 2 (split; [done|]).
    assert (Hs : wholeStep murmur n only reqsFirst cap accepts encode nS reqsFirst2 s s') by by exists m.
    split; [by eapply pinv_step|]. split; [by eapply cinv_step|]. by eapply sbal_step.
  Qed.
  Lemma lst_reach nseg progs s : wreach nseg progs s → lst nseg s.
  Proof.
    intros Hr. eexists _, [], (pipeProg <$> progs). split; [apply rtc_refl|]. split; [constructor|]. split; [by eapply pinv_reach|].
    split; [by eapply cinv_reach|by eapply sbal_reach].
  Qed.

  Lemma wprogress nc np nseg s : winv nc np s → lst nseg s → at_rest s ∨ decreasesw nc np s.
  Proof.
    intros Hi Hr. pose proof (wi_procs _ _ _ Hi) as HP. pose proof (wi_clients _ _ _ Hi) as HC.
    (* workers of leaf channels *)
    destruct (find_or (λ p, match pChan p, pActs p with Some ch, _ :: _ => negb (isSeg ch) | _, _ => false end) (wProcs s))
      as [(k & p & Hp & Hb)|F1].
    { right. destruct (Forall_lookup_1 _ _ _ _ HP Hp) as [Hok _]. unfold ProofLive.okp in Hok.
      destruct (pChan p) as [ch|] eqn:Ec; [|done]. destruct (pActs p) as [|a l] eqn:Ea; [done|].
      assert (Hd : do_act a). { destruct ch; [done|..]; destruct Hok as [_ HF]; by inversion HF. }
      destruct a; try done. eapply (dec_proc nc np k s p); [done|done|]. unfold procStep. rewrite Ea. done. }
    (* requests in leaf channels *)
    destruct (find_or (λ cm, negb (isSeg cm.1)) (wNet s)) as [(k & [ch m] & Hk & Hb)|F2].
    { right. apply (wworker_takes nc np s ch m Hi); [by eapply elem_of_list_lookup_2|]. intros k' p Hp Hc.
      pose proof (Forall_lookup_1 _ _ _ _ F1 Hp) as H1. cbn in H1, Hb. rewrite Hc in H1. destruct (pActs p); [done|]. congruence. }
    (* segmenters *)
    destruct (find_or (λ p, match pChan p, pActs p with Some ch, _ :: _ => isSeg ch | _, _ => false end) (wProcs s))
      as [(k & p & Hp & Hb)|F3].
    { right. destruct (Forall_lookup_1 _ _ _ _ HP Hp) as [Hok _]. unfold ProofLive.okp in Hok.
      destruct (pChan p) as [ch|] eqn:Ec; [|done]. destruct (pActs p) as [|a l] eqn:Ea; [done|]. destruct ch; try done.
      destruct Hok as [_ HF]. apply Forall_cons in HF as [Ha _]. destruct a as [|ch m| | | | |]; try done. destruct Ha as [Hl _].
      assert (Hq : (queued ch (wNet s) < cap ch)%nat).
      { assert (queued ch (wNet s) = 0%nat) as ->; [|specialize (Hcap ch); lia]. unfold queued.
        destruct (filter _ (wNet s)) as [|x f] eqn:Ef; [done|].
        assert (Hx : x ∈ filter (λ p0 : chan * msg, p0.1 = ch) (wNet s)) by (rewrite Ef; by left).
        apply elem_of_list_filter in Hx as [Hx1 Hx2]. rewrite Forall_forall in F2. apply F2 in Hx2. rewrite Hx1 in Hx2.
        by destruct ch. }
      eapply (dec_proc nc np k s p); [done|done|]. unfold procStep. rewrite Ea. cbn zeta. rewrite decide_True by done. done. }
    (* requests to the segmenters *)
    destruct (wNet s) as [|[ch m] net] eqn:En.
    2: { right. apply (wworker_takes nc np s ch m Hi); [rewrite En; by left|]. intros k p Hp Hc.
      pose proof (Forall_lookup_1 _ _ _ _ F3 Hp) as H1. apply Forall_cons in F2 as [H2 _]. cbn in H1, H2. rewrite Hc in H1.
      destruct (pActs p); [done|]. destruct ch; done. }
    (* store workers *)
    destruct (find_or (λ w, match w with WIdle => false | _ => true end) (wWork s)) as [(j & w & Hw & Hb)|F4].
    { right. apply (dec_other nc np (WMWorker j)); [done| |done|].
      - right. right. left. exists j. split; [done|]. rewrite <- (wi_w _ _ _ Hi). by eapply lookup_lt_Some.
      - cbn [wmoveStep]. unfold wstoreStep, workerStep. cbn [ssWork]. rewrite Hw. destruct w; [done|..]; by eexists. }
    (* removals *)
    destruct (wDels s) as [|id dels] eqn:Ed.
    2: { right. apply (dec_other nc np (WMDel 0)); [done|by do 3 right|done|]. cbn [wmoveStep]. unfold wstoreStep, delStep. cbn [ssDels]. rewrite Ed. by eexists. }
    assert (Hidle : Forall (eq WIdle) (wWork s)). { eapply Forall_impl; [exact F4|]. by intros []. }
    (* clients that can go on *)
    destruct (find_or (λ c, match wActs c with [] => negb (bool_decide (length (wCalls c) = 0%nat)) | a :: _ => negb (is_wf a) end) (wClients s))
      as [(k & c & Hc & Hb)|F5].
    { right. destruct (wActs c) as [|a l] eqn:Ea.
      - destruct (wCalls c) as [|c0 cs] eqn:Eq; [done|]. eapply (dec_client nc np k s c); [done|done| |].
        + unfold wprod. by rewrite Ea.
        + cbn [wmoveStep]. unfold wclientStep. rewrite Hc. cbn [mbind option_bind]. rewrite Ea, Eq. by eexists.
      - destruct (Forall_lookup_1 _ _ _ _ HC Hc) as [call Hok]. apply negb_true_iff in Hb. eapply (dec_client nc np k s c); [done|done| |].
        + unfold wprod. rewrite Ea. destruct a as [[]| | | | |]; done.
        + cbn [wmoveStep]. unfold wclientStep. rewrite Hc. cbn [mbind option_bind]. rewrite Ea. destruct a as [a|id data|id| | |]; try done.
          * destruct a as [e|ch m| | | | |]; try done; unfold procStep; cbn [pActs]; try (by eexists). rewrite En. cbn zeta.
            rewrite decide_True; [by eexists|]. specialize (Hcap ch). cbn. lia.
          * destruct (shard_range murmur nS id) as [H1 H2]; [done|].
            destruct (wWork s !! Z.to_nat (storeShard murmur nS id)) as [w|] eqn:Ew.
            { pose proof (Forall_lookup_1 _ _ _ _ Hidle Ew) as <-. by eexists. }
            apply lookup_ge_None in Ew. rewrite (wi_w _ _ _ Hi) in Ew. lia. }
    (* clients waiting in Flush *)
    destruct (find_or (λ c, match wActs c with a :: _ => is_wf a | _ => false end) (wClients s)) as [(k & c & Hc & Hb)|F6].
    { right.
      assert (Hpos : ∀ j c a l, wClients s !! j = Some c → wActs c = a :: l → is_wf a = true ∧ ∃ call, a :: l `suffix_of` wcallA call).
      { intros j c0 a l Hj Ea. pose proof (Forall_lookup_1 _ _ _ _ F5 Hj) as H5. cbn in H5. rewrite Ea in H5. apply negb_false_iff in H5. split; [done|].
        destruct (Forall_lookup_1 _ _ _ _ HC Hj) as [call Hok]. rewrite Ea in Hok. by exists call. }
      assert (Hcl : wclean s).
      { split.
        - destruct Hr as (start & PR & G & Hst0 & HPR & Hpv & _). destruct (Hpv (λ _, false)) as (q & P & Hq0 & Eqn & Eql & Eqp & HlP & Hrel).
          assert (Hq : pipe_reach murmur n only reqsFirst cap nseg G q) by (unfold pipe_reach in *; by etrans).
          assert (Hz : ∀ pr, in_flight (pW n pr) (pReq pr) (pFin pr) q = 0).
          { intros pr. unfold in_flight. rewrite Eqn, En. cbn [fmap list_fmap zsum foldr]. rewrite Z.add_0_r. apply zsum_zero.
            intros p Hp. rewrite Eqp in Hp. apply elem_of_app in Hp as [Hp|[Hp|Hp]%elem_of_app];
              [|rewrite Forall_forall in HPR; destruct (HPR p Hp) as [Ep _]; unfold proc_owed; by rewrite Ep|];
              apply elem_of_list_lookup in Hp as [j Hj].
            - destruct (lookup_lt_is_Some_2 (wClients s) j) as [c0 Hc0]; [rewrite <- HlP; by eapply lookup_lt_Some|].
              destruct (Hrel j c0 p Hc0 Hj) as (l1 & l2 & [El _] & _ & _ & [[? _]|(_ & Ep & _)]); [done|]. rewrite <- El in Ep.
              destruct (wActs c0) as [|a l] eqn:Ea; [unfold proc_owed; by rewrite Ep|].
              destruct (Hpos j c0 a l Hc0 Ea) as [Ha [call Hcall]]. by eapply wf_owed.
            - pose proof (Forall_lookup_1 _ _ _ _ F1 Hj) as H1. pose proof (Forall_lookup_1 _ _ _ _ F3 Hj) as H3.
              destruct (Forall_lookup_1 _ _ _ _ HP Hj) as [_ Hch]. cbn in H1, H3. unfold proc_owed.
              destruct (pActs p) as [|a l]; [done|]. destruct (pChan p) as [ch|]; [|done]. by destruct ch. }
          unfold ProofLive.clean. rewrite <- Eql. pose proof (balance murmur n only reqsFirst cap Hn PDocs nseg _ q Hq) as B1.
          pose proof (balance murmur n only reqsFirst cap Hn PRems nseg _ q Hq) as B2.
          pose proof (balance murmur n only reqsFirst cap Hn PForced nseg _ q Hq) as B3.
          rewrite Hz in B1, B2, B3. cbn in B1, B2, B3. lia.
        - destruct Hr as (start0 & PR0 & G0 & _ & _ & _ & [<- _] & HB). unfold sbal_inv in HB. rewrite HB.
          rewrite (zsum_zero busy), (zsum_zero (λ c, sbal (wActs c))); [lia|..].
          + intros c0 Hc0. apply elem_of_list_lookup in Hc0 as [j Hj]. destruct (wActs c0) as [|a l] eqn:Ea; [done|].
            destruct (Hpos j c0 a l Hj Ea) as [Ha [call Hcall]].
            assert (Hpl : ∀ p, Forall (λ x, plainW x = true) p → sbal p = 0).
            { intros p HF. apply sbal_none. eapply Forall_impl; [exact HF|]. intros x Hx. destruct x as [[]| | | | |]; done. }
            destruct (wf_positions _ _ _ Ha Hcall) as [_ [(p & -> & HF)|(p & -> & HF)]]; rewrite sbal_app, (Hpl p HF); [|done].
            rewrite sbal_cons, sbal_tail. done.
          + intros w Hw. rewrite Forall_forall in Hidle. by rewrite <- (Hidle _ Hw). }
      destruct (wActs c) as [|a l] eqn:Ea; [done|]. destruct (Hpos k c a l Hc Ea) as [Ha [call Hcall]].
      by eapply (wflush_exits nc np k a l call Ha Hcall). }
    (* nobody *)
    left. split; [|split; [split; [done|]|by split]].
    - apply Forall_forall. intros c Hc. apply elem_of_list_lookup in Hc as [j Hj].
      pose proof (Forall_lookup_1 _ _ _ _ F5 Hj) as H5. pose proof (Forall_lookup_1 _ _ _ _ F6 Hj) as H6. cbn in H5, H6.
      destruct (wActs c) as [|a l]; [|by rewrite H6 in H5]. split; [done|]. by destruct (wCalls c).
    - apply Forall_forall. intros p Hp. apply elem_of_list_lookup in Hp as [j Hj].
      pose proof (Forall_lookup_1 _ _ _ _ F1 Hj) as H1. pose proof (Forall_lookup_1 _ _ _ _ F3 Hj) as H3.
      destruct (Forall_lookup_1 _ _ _ _ HP Hj) as [_ Hch]. cbn in H1, H3.
      destruct (pActs p) as [|a l]; [done|]. destruct (pChan p) as [ch|]; [|done]. by destruct ch.
  Qed.

  Lemma lst_after nseg ms s i : lst nseg s → lst nseg (aft ms s i).
  Proof. intros H. induction i as [|i IH]; [done|]. cbn. unfold wturn. destruct (wmv (ms i) _) eqn:E; [|done]. by eapply lst_step. Qed.
  Lemma wreach_after nseg progs ms s i : wreach nseg progs s → wreach nseg progs (aft ms s i).
  Proof.
    intros H. induction i as [|i IH]; [done|]. cbn. unfold wturn. destruct (wmv (ms i) _) eqn:E; [|done].
    eapply rtc_r; [exact IH|]. by exists (ms i).
  Qed.
  Lemma winv_reach nseg progs s : (1 <= nseg)%nat → wreach nseg progs s → winv (length progs) (nseg + 4 * Z.to_nat n) s.
  Proof.
    intros Hs Hr. unfold whole_reach in Hr. revert s Hr.
    apply (rtc_ind_r (R := wholeStep murmur n only reqsFirst cap accepts encode nS reqsFirst2) (winv (length progs) (nseg + 4 * Z.to_nat n))).
    - by apply winv_init.
    - intros y z _ [m Hm] IH. by eapply winv_step.
  Qed.
  Theorem rest_gen nc np nseg s ms : winv nc np s → lst nseg s → fairw nc np ms → ∃ i, at_rest (aft ms s i).
  Proof.
    intros Hi Hr. revert ms. remember (wwork s) as w eqn:Ew. revert s Hr Hi Ew.
    induction (lt_wf w) as [w _ IH]. intros s Hr Hi -> ms Hf.
    destruct (wprogress _ _ nseg s Hi Hr) as [Hq|Hd]; [by exists 0%nat|].
    destruct (Hd ms Hf) as [j Hj].
    destruct (IH _ Hj (aft ms s j)) with (ms := λ x, ms (j + x)%nat) as [i Hq]; [by apply lst_after|by apply winv_after|done|by apply wfair_shift|].
    exists (j + i)%nat. by rewrite wafter_add.
  Qed.
  Theorem whole_rest nseg progs s ms : (1 <= nseg)%nat → wreach nseg progs s →
    fairw (length progs) (nseg + 4 * Z.to_nat n) ms → ∃ i, at_rest (aft ms s i).
  Proof. intros Hs Hr. eapply rest_gen; [by eapply winv_reach|by eapply lst_reach]. Qed.
  Theorem still_gen s m : cinv s → at_rest s → wmv m s = None.
  Proof.
    intros Hr (Ha & [Hn' Hp] & [Hw Hd]). destruct m as [k|k|j|k]; cbn [wmoveStep].
    - unfold wclientStep. destruct (wClients s !! k) as [c|] eqn:Hc; [|done]. destruct (Forall_lookup_1 _ _ _ _ Ha Hc) as [E1 E2].
      cbn [mbind option_bind]. by rewrite E1, E2.
    - unfold wprocStep. destruct (wProcs s !! k) as [p|] eqn:Hk; [|done]. cbn [mbind option_bind]. unfold procStep.
      rewrite (Forall_lookup_1 _ _ _ _ Hp Hk), Hn'. destruct Hr as [_ HW].
      destruct (Forall_lookup_1 _ _ _ _ HW Hk) as (Hch & Hcs & _). rewrite Hcs. by destruct (pChan p).
    - unfold wstoreStep, workerStep. cbn [ssWork]. destruct (wWork s !! j) as [w|] eqn:Ew; [|done]. by rewrite <- (Forall_lookup_1 _ _ _ _ Hw Ew).
    - unfold wstoreStep, delStep. cbn [ssDels]. by rewrite Hd.
  Qed.
  Theorem whole_still nseg progs s m : wreach nseg progs s → at_rest s → wmv m s = None.
  Proof. intros Hr. apply still_gen. by eapply cinv_reach. Qed.

  (** * What has been done to the files *)
  Definition aop (a : ModelWhole.wact) : option dbop :=
    match a with WSend id d => Some (PutOp id (written accepts encode id d)) | WSpawn id => Some (DelOp id) | _ => None end.
  Definition held (w : sworker) : list dbop := match w with WHold id d => [PutOp id (written accepts encode id d)] | _ => [] end.
  Definition cpend (c : wclient) : list dbop := omap aop (wActs c) ++ omap (asked_op accepts encode) (wCalls c).
  Definition cnt (x : dbop) (l : list dbop) : nat := count_occ dbop_eq_dec l x.
  Lemma cnt_app x l1 l2 : cnt x (l1 ++ l2) = (cnt x l1 + cnt x l2)%nat.
  Proof. apply count_occ_app. Qed.
  Lemma cnt_ins {A} (f : A → list dbop) (l : list A) k y y' x : l !! k = Some y →
    (cnt x (mjoin (f <$> <[k:=y']> l)) + cnt x (f y) = cnt x (mjoin (f <$> l)) + cnt x (f y'))%nat.
  Proof.
    intros Hp. rewrite <- (take_drop_middle _ _ _ Hp) at 2. rewrite insert_take_drop by (by eapply lookup_lt_Some).
    rewrite !fmap_app, !mjoin_app, !fmap_cons, !mjoin_cons, !cnt_app. lia.
  Qed.
  Lemma aop_pipe l : omap aop (WPipe <$> l) = [].
  Proof. induction l as [|a l IH]; [done|]. exact IH. Qed.
  Lemma aop_loop1 : omap aop wloop1 = [].
  Proof. unfold wLoop1. rewrite omap_app, aop_pipe. done. Qed.
  Lemma aop_call c : omap aop (wcallA c) = match asked_op accepts encode c with Some o => [o] | None => [] end.
  Proof.
    destruct c as [d data f|id f|]; cbn [wcallActs asked_op]; rewrite omap_app, ?aop_pipe, ?aop_loop1; [..|done]; cbn [app].
    - unfold seqb. destruct (String.eqb_spec (DocId d) "0"); [by rewrite decide_True|by rewrite decide_False].
    - unfold seqb. destruct (String.eqb_spec id "0"); [by rewrite decide_True|by rewrite decide_False].
  Qed.
  Definition opinv (all : list dbop) (s : wstate) : Prop := ∀ x,
    (cnt x (omap store_op (wSLog s)) + cnt x (mjoin (held <$> wWork s)) + cnt x (DelOp <$> wDels s) +
     cnt x (mjoin (cpend <$> wClients s)) = cnt x all)%nat.
  Lemma op_req a log : omap store_op (log ++ reqEvent a) = omap store_op log.
  Proof. destruct a as [[[]| |]| | | | | |]; cbn [reqEvent]; rewrite ?app_nil_r, ?omap_app; try done; cbn; by rewrite app_nil_r. Qed.
  Lemma opinv_step all m s s' : wmv m s = Some s' → opinv all s → opinv all s'.
  Proof.
    intros Hs HB x. specialize (HB x). destruct m as [k|k|j|k]; cbn [wmoveStep] in Hs.
    - unfold wclientStep in Hs. destruct (wClients s !! k) as [c|] eqn:Hc; [|done]. cbn [mbind option_bind] in Hs.
      assert (Hx : ∀ c', (cnt x (mjoin (cpend <$> <[k:=c']> (wClients s))) + cnt x (cpend c) = cnt x (mjoin (cpend <$> wClients s)) + cnt x (cpend c'))%nat)
        by (intros; by apply cnt_ins).
      unfold cpend in Hx at 2. destruct (wActs c) as [|a acts] eqn:Ea.
      + destruct (wCalls c) as [|c0 cs]; [done|]. injection Hs as <-. cbn [wClients wWork wDels wSLog]. specialize (Hx (mkWC cs (wcallA c0) 0 true 0 true)).
        unfold cpend in Hx at 3. cbn [wActs wCalls] in Hx. rewrite aop_call in Hx. cbn [omap list_omap app] in Hx.
        destruct (asked_op accepts encode c0) as [o|]; cbn [app] in Hx; lia.
      + destruct a as [a|id data|id| | |].
        * destruct (pSt _ _ _) as [[[p net'] log']|] eqn:Hst; [|done]. cbn [mbind option_bind] in Hs. injection Hs as <-. cbn [wClients wWork wDels wSLog].
          rewrite op_req. match goal with |- context [<[k:=?c']> _] => specialize (Hx c') end. unfold cpend in Hx at 3. cbn [wActs wCalls] in Hx.
          rewrite omap_app, aop_pipe in Hx. cbn [omap list_omap app aop] in Hx. lia.
        * destruct (wWork s !! _) as [w|] eqn:Ew; [|done]. destruct w; try done. injection Hs as <-. cbn [wClients wWork wDels wSLog].
          match goal with |- context [<[k:=?c']> (wClients s)] => specialize (Hx c') end. unfold cpend in Hx at 3. cbn [wActs wCalls omap list_omap app aop] in Hx.
          pose proof (cnt_ins held (wWork s) _ _ (WHold id data) x Ew) as Hy. cbn [held] in Hy. rewrite omap_app, cnt_app. cbn [omap list_omap store_op].
          change (?a :: ?l ++ ?r) with ([a] ++ l ++ r) in Hx. rewrite cnt_app in Hx. change (cnt x []) with 0%nat in *. lia.
        * injection Hs as <-. cbn [wClients wWork wDels wSLog].
          match goal with |- context [<[k:=?c']> (wClients s)] => specialize (Hx c') end. unfold cpend in Hx at 3. cbn [wActs wCalls omap list_omap app aop] in Hx.
          rewrite omap_app, fmap_app, !cnt_app. cbn [omap list_omap store_op fmap list_fmap].
          change (?a :: ?l ++ ?r) with ([a] ++ l ++ r) in Hx. rewrite cnt_app in Hx. change (cnt x []) with 0%nat in *. lia.
        * injection Hs as <-. cbn [wClients wWork wDels wSLog].
          match goal with |- context [<[k:=?c']> (wClients s)] => specialize (Hx c') end. unfold cpend in Hx at 3. cbn [wActs wCalls omap list_omap app aop] in Hx. lia.
        * injection Hs as <-. cbn [wClients wWork wDels wSLog].
          match goal with |- context [<[k:=?c']> (wClients s)] => specialize (Hx c') end. unfold cpend in Hx at 3. cbn [wActs wCalls omap list_omap app aop] in Hx. lia.
        * assert (E : omap aop (if wOk c && wOk2 c then acts else wloop1 ++ acts) = omap aop acts) by (destruct (_ && _); rewrite ?omap_app, ?aop_loop1; done).
          set (l0 := if wOk c && wOk2 c then acts else wloop1 ++ acts) in *. clearbody l0. injection Hs as <-. cbn [wClients wWork wDels wSLog].
          match goal with |- context [<[k:=?c']> (wClients s)] => specialize (Hx c') end. unfold cpend in Hx at 3. cbn [wActs wCalls] in Hx. rewrite E in Hx.
          cbn [omap list_omap app aop] in Hx. lia.
    - unfold wprocStep in Hs. destruct (wProcs s !! k) as [p|] eqn:Hp; [|done]. cbn [mbind option_bind] in Hs.
      destruct (pSt p (wNet s) (wLog s)) as [[[p' net'] log']|] eqn:Hst; [|done]. cbn [mbind option_bind] in Hs. by injection Hs as <-.
    - unfold wstoreStep, workerStep in Hs. cbn [ssWork ssClients ssDels ssLog] in Hs. destruct (wWork s !! j) as [w|] eqn:Ew; [|done].
      cbn [mbind option_bind] in Hs. destruct w as [|id d|]; try done; injection Hs as <-;
        cbn [wClients wWork wDels wSLog ssWork ssLog ssDels]; rewrite omap_app, cnt_app; cbn [omap list_omap store_op].
      + pose proof (cnt_ins held (wWork s) _ _ WWritten x Ew) as Hy. cbn [held] in Hy. change (cnt x []) with 0%nat in *. lia.
      + pose proof (cnt_ins held (wWork s) _ _ WIdle x Ew) as Hy. cbn [held] in Hy. change (cnt x []) with 0%nat in *. lia.
    - unfold wstoreStep, delStep in Hs. cbn [ssWork ssClients ssDels ssLog] in Hs. destruct (wDels s !! k) as [id|] eqn:Ed; [|done].
      cbn [mbind option_bind] in Hs. injection Hs as <-. cbn [wClients wWork wDels wSLog ssWork ssLog ssDels].
      rewrite omap_app, cnt_app; cbn [omap list_omap store_op]. rewrite delete_take_drop, fmap_app, cnt_app.
      rewrite <- (take_drop_middle _ _ _ Ed), fmap_app, cnt_app, fmap_cons in HB.
      change (?a :: (DelOp <$> ?l)) with ([a] ++ (DelOp <$> l)) in HB. rewrite cnt_app in HB. lia.
  Qed.
  Lemma opinv_init nseg progs : opinv (omap (asked_op accepts encode) (mjoin progs)) (wholeInit n nS nseg progs).
  Proof.
    intros x. unfold wholeInit. cbn [wClients wWork wDels wSLog]. change (cnt x (omap store_op [])) with 0%nat. change (cnt x (DelOp <$> [])) with 0%nat.
    assert (mjoin (held <$> replicate (Z.to_nat nS) WIdle) = []) as ->.
    { induction (Z.to_nat nS) as [|m IH]; [done|]. cbn [replicate]. by rewrite fmap_cons, mjoin_cons, IH. }
    change (cnt x []) with 0%nat. cbn [Nat.add]. f_equal. induction progs as [|cs progs IH]; [done|]. rewrite !fmap_cons, !mjoin_cons, omap_app, IH. done.
  Qed.
  Theorem whole_ops nseg progs s : wreach nseg progs s → at_rest s →
    omap store_op (wSLog s) ≡ₚ omap (asked_op accepts encode) (mjoin progs).
  Proof.
    intros Hr (Ha & _ & [Hw Hd]). assert (HO : opinv (omap (asked_op accepts encode) (mjoin progs)) s).
    { unfold whole_reach in Hr. revert s Hr Ha Hw Hd. intros s Hr _ _ _. revert s Hr.
      apply (rtc_ind_r (R := wholeStep murmur n only reqsFirst cap accepts encode nS reqsFirst2)).
      - apply opinv_init.
      - intros y z _ [m Hm] IH. by eapply opinv_step. }
    apply (Permutation_count_occ dbop_eq_dec). intros x. specialize (HO x). unfold cnt in HO. rewrite <- HO, Hd. cbn [fmap list_fmap count_occ].
    assert (mjoin (held <$> wWork s) = []) as ->.
    { clear HO. induction Hw as [|w ws <- _ IH]; [done|]. by rewrite fmap_cons, mjoin_cons, IH. }
    assert (mjoin (cpend <$> wClients s) = []) as ->.
    { clear HO. induction Ha as [|c cs [E1 E2] _ IH]; [done|]. rewrite fmap_cons, mjoin_cons, IH. unfold cpend. by rewrite E1, E2. }
    cbn [count_occ]. lia.
  Qed.
End WLive.

Section WLiveThms.
  Context (murmur : string → Z) (n : Z) (only reqsFirst : bool) (cap : chan → nat).
  Context (accepts : string → string → bool) (encode : DocData → option string) (nS : Z) (reqsFirst2 : bool).
  Hypothesis Hn : 1 <= n < 2^32.
  Notation wreach := (whole_reach murmur n only reqsFirst cap accepts encode nS reqsFirst2).

  Lemma calls_join (progs : list (list wcall)) : mjoin (pipeProg <$> progs) = pipeCall <$> mjoin progs.
  Proof. induction progs as [|cs progs IH]; [done|]. by rewrite fmap_cons, !mjoin_cons, fmap_app, IH. Qed.
  Theorem whole_once nseg progs s i : wreach nseg progs s → at_rest s → 0 <= i < n →
    omap doc_added (ixCalls i (wLog s)) ≡ₚ omap (asked_add murmur n i) (pipeCall <$> mjoin progs) ∧
    omap doc_removed (ixCalls i (wLog s)) ≡ₚ omap asked_removal (pipeCall <$> mjoin progs) ∧
    rkCalls i (wLog s) ≡ₚ omap (asked_rank murmur n only i) (pipeCall <$> mjoin progs).
  Proof.
    intros Hr (Ha & Hp & _) Hi. destruct (whole_pipe _ _ _ _ _ _ _ _ _ _ _ _ Hr) as (q & Hq & _ & El & _ & Hqu).
    rewrite <- El, <- calls_join. exact (once_lem murmur n only reqsFirst cap Hn nseg _ q i Hq (Hqu Ha Hp) Hi).
  Qed.
End WLiveThms.
