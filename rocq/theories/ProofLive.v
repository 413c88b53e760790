(** Fair executions of the write pipeline come to rest. *)
From Verif Require Import ModelPipe SpecPipe SpecLive ProofTopK ProofRoute ProofPipe ProofFlush ProofFlushThms.

Section Live.
  Context (murmur : string → Z) (n : Z) (only reqsFirst : bool) (cap : chan → nat).
  Notation callA := (callActs n reqsFirst).
  Notation hand := (handler murmur n only).
  Notation pst := (pstep murmur n only reqsFirst cap).
  Notation pSt := (procStep murmur n only reqsFirst cap).
  Notation loop1 := (flushLoop1 reqsFirst).
  Hypothesis Hn : 1 <= n < 2^32.
  Hypothesis Hcap : ∀ ch, (1 <= cap ch)%nat.

  (** * Who sends what *)
  Definition leafc (ch : chan) : Prop :=
    match ch with CSeg => False | CIxAdd i | CIxRem i | CRkAdd i | CRkRem i => 0 <= i < n end.
  Definition send_ok (ch : chan) (m : msg) : Prop := (ch = CSeg ∧ is_seg m = true) ∨ (leafc ch ∧ is_seg m = false).

  Lemma in_shards i : i ∈ shards n → 0 <= i < n.
  Proof. unfold shards. rewrite elem_of_seqZ. lia. Qed.

  Definition seg_act (a : act) : Prop := match a with ASend ch m => leafc ch ∧ is_seg m = false | _ => False end.
  Definition do_act (a : act) : Prop := match a with ADo _ => True | _ => False end.
  Lemma hand_seg m : is_seg m = true → Forall seg_act (hand m).
  Proof.
    destruct m as [c|i d f|i id f|i o]; try done. intros _. cbn. unfold segActs.
    destruct c as [d f ct a fo|id fo|]; [|constructor..].
    assert (Hsh : ∀ l, (∀ i, i ∈ l → 0 <= i < n) → Forall seg_act ((λ i, ASend (CIxAdd i) (MAdd i None true)) <$> l)).
    { intros l Hl. apply Forall_fmap, Forall_forall. intros i Hi. cbn. split; [by apply Hl|done]. }
    destruct (seqb (DocId d) "0").
    - destruct fo; [|constructor]. apply Hsh, in_shards.
    - pose proof (shardOf_range murmur n Hn (DocId d) ct) as Hr. rewrite !Forall_app. repeat split.
      + repeat constructor; cbn; lia.
      + destruct fo; [|constructor]. apply Hsh. intros i Hi. apply elem_of_list_filter in Hi as [_ Hi]. by apply in_shards.
      + repeat constructor; cbn; lia.
  Qed.
  Lemma hand_leaf m : is_seg m = false → Forall do_act (hand m).
  Proof.
    destruct m as [c|i d f|i id f|i o]; try done; intros _; cbn.
    - destruct d, f; repeat constructor.
    - destruct (seqb id "0"), f; repeat constructor.
    - repeat constructor.
  Qed.
  Definition client_act (a : act) : Prop := match a with ASend ch m => send_ok ch m | _ => True end.
  Lemma call_acts c : Forall client_act (callA c).
  Proof.
    assert (Hi : ∀ id f c, Forall client_act (incs id f c)).
    { intros id f c0. unfold incs. destruct (seqb id "0"), f; repeat constructor. }
    destruct c as [d f ct a fo|id fo|]; cbn [callActs].
    - unfold indexActs. apply Forall_app. split; [apply Hi|]. constructor; [by left|constructor].
    - apply Forall_app. split; [apply Hi|]. apply Forall_join, Forall_fmap, Forall_forall. intros i Hin.
      apply in_shards in Hin. constructor; [by right|]. destruct (seqb id "0"); [constructor|]. constructor; [by right|constructor].
    - rewrite !Forall_app. repeat split.
      + unfold flushLoop1. destruct reqsFirst; repeat constructor.
      + unfold indexActs. apply Forall_app. split; [apply Hi|]. constructor; [by left|constructor].
      + repeat constructor.
  Qed.

  (** * The invariant *)
  Definition okp (p : proc) : Prop :=
    match pChan p with
    | None => ∃ c, pActs p `suffix_of` callA c
    | Some CSeg => pCalls p = [] ∧ Forall seg_act (pActs p)
    | Some _ => pCalls p = [] ∧ Forall do_act (pActs p)
    end.
  Record linv (N : nat) (s : pstate) : Prop := {
    li_len : length (sProcs s) = N;
    li_procs : Forall okp (sProcs s);
    li_net : Forall (λ cm, send_ok cm.1 cm.2) (sNet s);
    li_work : ∀ ch, ch = CSeg ∨ leafc ch → ∃ k p, sProcs s !! k = Some p ∧ pChan p = Some ch }.

  Lemma procStep_chan p net log p' net' log' : pSt p net log = Some (p', net', log') → pChan p' = pChan p.
  Proof. intros H. by destruct (procStep_perm _ _ _ _ _ _ _ _ _ _ _ H). Qed.

  Lemma suffix_cons_tl {A} (a : A) l1 l2 : a :: l1 `suffix_of` l2 → l1 `suffix_of` l2.
  Proof. intros [l ->]. exists (l ++ [a]). by rewrite <- app_assoc. Qed.

  Definition flushTail : list act := [ADo (EvInc NumForceUpdatingReqs); ASend CSeg (MSeg zeroCall)] ++ flushLoop2.
  Lemma flush_acts : callA EFlush = loop1 ++ flushTail.
  Proof. done. Qed.
  Definition is_f (a : act) : bool := match a with ADo _ | ASend _ _ => false | _ => true end.
  Lemma call_no_f c a : c ≠ EFlush → a ∈ callA c → is_f a = false.
  Proof.
    assert (Hi : ∀ id f c, a ∈ incs id f c → is_f a = false).
    { intros id f c0. unfold incs. destruct (seqb id "0"), f; cbn; rewrite ?elem_of_cons, ?elem_of_nil; naive_solver. }
    destruct c as [d f ct at_ fo|id fo|]; [..|done]; intros _; cbn.
    - unfold indexActs. rewrite elem_of_app, elem_of_list_singleton. intros [H| ->]; [by eapply Hi|done].
    - rewrite elem_of_app. intros [H|H]; [by eapply Hi|]. apply elem_of_list_join in H as (l & Hl & H).
      apply elem_of_list_fmap in H as (i & -> & _). apply elem_of_cons in Hl as [->|Hl]; [done|].
      destruct (seqb id "0"); [by apply elem_of_nil in Hl|]. by apply elem_of_list_singleton in Hl as ->.
  Qed.
  Lemma f_suffix a rest c : is_f a = true → a :: rest `suffix_of` callA c →
    c = EFlush ∧ a :: rest `suffix_of` loop1 ++ flushTail.
  Proof.
    intros Ha Hc. assert (Hd : c = EFlush ∨ c ≠ EFlush) by (destruct c; auto).
    destruct Hd as [->|Hne]; [done|].
    assert (is_f a = false); [|congruence]. apply (call_no_f c); [done|]. destruct Hc as [l ->].
    apply elem_of_app. right. by left.
  Qed.
  Ltac walk l E := destruct l as [|? l]; cbn in E; [try discriminate E|injection E as _ E].
  Lemma floop1_rest rest c : FLoop1 :: rest `suffix_of` callA c → c = EFlush ∧ rest = flushTail.
  Proof.
    intros H. apply f_suffix in H; [|done]; destruct H as [-> [l E]]. split; [done|].
    unfold flushLoop1 in E. destruct reqsFirst; do 5 (walk l E); (destruct l as [|? l]; cbn in E; [by injection E as <-|injection E as _ E]);
      do 6 (walk l E); by destruct l.
  Qed.
  Lemma floop2_rest rest c : FLoop2 :: rest `suffix_of` callA c → c = EFlush ∧ rest = [].
  Proof.
    intros H. apply f_suffix in H; [|done]; destruct H as [-> [l E]]. split; [done|].
    unfold flushLoop1 in E. destruct reqsFirst; do 11 (walk l E); (destruct l as [|? l]; cbn in E; [by injection E as <-|injection E as _ E]);
      by destruct l.
  Qed.

  Lemma procStep_ok p net log p' net' log' : okp p → Forall (λ cm, send_ok cm.1 cm.2) net →
    pSt p net log = Some (p', net', log') → okp p' ∧ Forall (λ cm, send_ok cm.1 cm.2) net'.
  Proof.
    intros Hok Hnet. unfold procStep. destruct p as [ch calls acts reg ok]. unfold okp in Hok. cbn in *.
    destruct acts as [|a rest].
    - destruct ch as [ch|].
      + destruct (takeFirst ch net) as [[m net1]|] eqn:E; [|done]. cbn. injection 1 as <- <- <-.
        apply takeFirst_perm in E. rewrite E in Hnet. apply Forall_cons in Hnet as [Hm Hnet]. split; [|done].
        cbn in Hm. unfold okp. cbn. destruct Hm as [[-> Hm]|[Hl Hm]].
        * split; [by destruct Hok|]. by apply hand_seg.
        * destruct ch; [done|..]; (split; [by destruct Hok|]; by apply hand_leaf).
      + destruct calls as [|c cs]; [done|]. injection 1 as <- <- <-. split; [|done]. by exists c.
    - intros H.
      assert (Hgen : ∀ l r ok', (∀ c, ch = None → a :: rest `suffix_of` callA c → ∃ c', l `suffix_of` callA c') →
        (ch ≠ None → l = rest) → okp (mkProc ch calls l r ok')).
      { intros l r ok' H1 H2. unfold okp. cbn. destruct ch as [[]|]; [..|destruct Hok as [c Hc]; by apply (H1 c)].
        all: destruct Hok as [? HF]; rewrite H2 by done; (split; [done|]); by inversion HF. }
      assert (Hr : ∀ r ok', okp (mkProc ch calls rest r ok')).
      { intros. apply Hgen; [|done]. intros c _ Hc. exists c. by eapply suffix_cons_tl. }
      assert (Hx : ch ≠ None → do_act a ∨ seg_act a).
      { intros Hc. destruct ch as [[]|]; [..|done]; destruct Hok as [_ HF]; inversion HF; auto. }
      destruct a as [e|c m| |c|c| |]; cbn zeta in H.
      + injection H as <- <- <-. by split.
      + destruct (decide _) as [Hq|]; [|done]. injection H as <- <- <-. split; [done|]. apply Forall_app. split; [done|].
        constructor; [|constructor]. cbn. destruct ch as [ch|].
        * destruct Hx as [[]|[? ?]]; [done|]. by right.
        * destruct Hok as [c0 Hc]. pose proof (call_acts c0) as HF. destruct Hc as [l Hl]. rewrite Hl in HF.
          apply Forall_app in HF as [_ HF]. by inversion HF.
      + injection H as <- <- <-. by split.
      + injection H as <- <- <-. by split.
      + injection H as <- <- <-. by split.
      + injection H as <- <- <-. split; [|done]. destruct ok; [done|]. apply Hgen.
        * intros c _ Hc. destruct (floop1_rest _ _ Hc) as [-> ->]. by exists EFlush.
        * intros Hc. by destruct Hx as [[]|[]].
      + injection H as <- <- <-. split; [|done]. destruct ok; [done|]. apply Hgen.
        * intros c _ Hc. destruct (floop2_rest _ _ Hc) as [-> ->]. exists EFlush. rewrite flush_acts.
          unfold flushTail. rewrite app_assoc. by exists (loop1 ++ [ADo (EvInc NumForceUpdatingReqs); ASend CSeg (MSeg zeroCall)]).
        * intros Hc. by destruct Hx as [[]|[]].
  Qed.

  Lemma linv_step N k s s' : linv N s → pst k s = Some s' → linv N s'.
  Proof.
    intros [L P Ne Wk] (p & p' & net' & log' & Hp & Hs & ->)%pstep_inv. pose proof (Forall_lookup_1 _ _ _ _ P Hp) as Hok.
    destruct (procStep_ok _ _ _ _ _ _ Hok Ne Hs) as [Hok' Hnet']. split; cbn.
    - by rewrite insert_length.
    - by apply Forall_insert.
    - done.
    - intros ch Hch. destruct (Wk ch Hch) as (j & q & Hq & Hc). destruct (decide (j = k)) as [->|].
      + exists k, p'. rewrite list_lookup_insert by (by eapply lookup_lt_Some). split; [done|].
        rewrite (procStep_chan _ _ _ _ _ _ Hs). congruence.
      + exists j, q. by rewrite list_lookup_insert_ne.
  Qed.

  Lemma linv_init nseg progs : (1 <= nseg)%nat → linv (length progs + nseg + 4 * Z.to_nat n) (pipeInit n nseg progs).
  Proof.
    intros Hs. split; cbn.
    - rewrite !app_length, fmap_length, replicate_length.
      assert (H : ∀ l, length (mjoin ((λ i, [worker (CIxAdd i); worker (CIxRem i); worker (CRkAdd i); worker (CRkRem i)]) <$> l)) = (4 * length l)%nat).
      { induction l as [|i l IH]; [done|]. rewrite fmap_cons, mjoin_cons, app_length, IH. cbn. lia. }
      rewrite H. unfold shards. rewrite seqZ_length. lia.
    - rewrite !Forall_app. repeat split.
      + apply Forall_fmap, Forall_true. intros c. exists EFlush. cbn. apply suffix_nil.
      + apply Forall_replicate. split; [done|constructor].
      + apply Forall_join, Forall_fmap, Forall_true. intros i. repeat constructor.
    - constructor.
    - intros ch Hch.
      assert (H : worker ch ∈ replicate nseg (worker CSeg) ++
        mjoin ((λ i, [worker (CIxAdd i); worker (CIxRem i); worker (CRkAdd i); worker (CRkRem i)]) <$> shards n)).
      { apply elem_of_app. destruct Hch as [->|Hl].
        - left. apply elem_of_replicate. split; [done|lia].
        - right. apply elem_of_list_join. destruct ch as [|i|i|i|i]; [done|..]; cbn in Hl.
          all: exists [worker (CIxAdd i); worker (CIxRem i); worker (CRkAdd i); worker (CRkRem i)];
            split; [rewrite !elem_of_cons; tauto|]; apply elem_of_list_fmap; exists i; (split; [done|]); apply elem_of_seqZ; lia. }
      apply elem_of_list_lookup in H as [k Hk]. exists (length (@client <$> progs) + k)%nat, (worker ch). split; [|done].
      rewrite lookup_app_r by lia. rewrite <- Hk. f_equal. lia.
  Qed.

  (** * Remaining work *)
  Definition wm (m : msg) : nat :=
    match m with
    | MSeg _ => sum_list ((λ a, match a with ASend _ m' => 2 + length (hand m') | _ => 1 end) <$> hand m)
    | _ => length (hand m)
    end%nat.
  Definition wact (a : act) : nat :=
    match a with ADo _ | FLoop1 | FLoop2 => 1 | ASend _ m => 2 + wm m | _ => 0 end%nat.
  Definition wacts (l : list act) : nat := sum_list (wact <$> l).
  Definition wproc (p : proc) : nat := (wacts (pActs p) + sum_list ((λ c, S (wacts (callA c))) <$> pCalls p))%nat.
  Definition wnet (net : list (chan * msg)) : nat := sum_list ((λ cm, S (wm cm.2)) <$> net).
  Definition work (s : pstate) : nat := (sum_list (wproc <$> sProcs s) + wnet (sNet s))%nat.

  Lemma sum_list_app l1 l2 : sum_list (l1 ++ l2) = (sum_list l1 + sum_list l2)%nat.
  Proof. induction l1 as [|x l1 IH]; [done|]. cbn. rewrite IH. lia. Qed.
  Lemma sum_list_perm l1 l2 : l1 ≡ₚ l2 → sum_list l1 = sum_list l2.
  Proof. induction 1; cbn; lia. Qed.
  Lemma wacts_do l : Forall do_act l → wacts l = length l.
  Proof. induction 1 as [|a l Ha _ IH]; [done|]. unfold wacts in *. cbn. rewrite IH. by destruct a. Qed.
  Lemma wm_leaf m : is_seg m = false → wm m = length (hand m).
  Proof. by destruct m. Qed.
  Lemma wm_hand m : wacts (hand m) = wm m.
  Proof.
    destruct (is_seg m) eqn:E.
    - pose proof (hand_seg m E) as HF. destruct m as [c|?|?|?]; try done. unfold wm, wacts. f_equal.
      induction HF as [|a l Ha _ IH]; [done|]. rewrite !fmap_cons, IH. f_equal. destruct a as [|ch m'| | | | |]; try done.
      destruct Ha as [_ Ha]. cbn [wact]. by rewrite wm_leaf.
    - rewrite wm_leaf by done. apply wacts_do. by apply hand_leaf.
  Qed.
  Lemma wacts_app l1 l2 : wacts (l1 ++ l2) = (wacts l1 + wacts l2)%nat.
  Proof. unfold wacts. by rewrite fmap_app, sum_list_app. Qed.
  Lemma wacts_cons a l : wacts (a :: l) = (wact a + wacts l)%nat.
  Proof. done. Qed.
  Lemma wacts_loop1 : wacts loop1 = 1%nat.
  Proof. unfold flushLoop1. by destruct reqsFirst. Qed.
  Lemma wnet_app l1 l2 : wnet (l1 ++ l2) = (wnet l1 + wnet l2)%nat.
  Proof. unfold wnet. by rewrite fmap_app, sum_list_app. Qed.

  (** Steps that are not turns of a waiting loop *)
  Definition productive (p : proc) : Prop :=
    match pActs p with
    | [] | ADo _ :: _ | ASend _ _ :: _ => True
    | FLoop1 :: _ | FLoop2 :: _ => pOk p = true
    | _ => False
    end.
  Lemma pSt_work p net log p' net' log' : pSt p net log = Some (p', net', log') →
    (wproc p' + wnet net' < wproc p + wnet net)%nat ∨
    (¬ productive p ∧ (wproc p' + wnet net' = wproc p + wnet net)%nat ∧ net' = net ∧ log' = log).
  Proof.
    unfold procStep, productive, wproc. destruct p as [ch calls acts reg ok]. cbn [pActs pChan pCalls pReg pOk].
    destruct acts as [|a rest].
    - destruct ch as [ch|].
      + destruct (takeFirst ch net) as [[m net1]|] eqn:E; [|done]. cbn [mbind option_bind]. injection 1 as <- <- <-. left. cbn [pActs pCalls].
        apply takeFirst_perm in E. rewrite wm_hand. change (wacts []) with 0%nat.
        assert (wnet net = S (wm m) + wnet net1)%nat as ->; [|lia].
        transitivity (wnet ((ch, m) :: net1)); [|done]. unfold wnet. apply sum_list_perm. by rewrite E.
      + destruct calls as [|c cs]; [done|]. injection 1 as <- <- <-. left. cbn [pActs pCalls fmap list_fmap sum_list foldr].
        change (wacts []) with 0%nat. cbn. lia.
    - destruct a as [e|c m| |c|c| |]; cbn zeta; [|destruct (decide _); [|done]|..]; injection 1 as <- <- <-;
        cbn [pActs pCalls]; rewrite wacts_cons; cbn [wact].
      + left. lia.
      + left. rewrite wnet_app. unfold wnet at 2. cbn. lia.
      + right. auto with lia.
      + right. auto with lia.
      + right. auto with lia.
      + destruct ok; [left; lia|]. right. split; [done|]. split; [|done].
        match goal with |- (wacts ?x + _ + _ = _)%nat => change (wacts x) with (wacts (loop1 ++ rest)) end. rewrite wacts_app, wacts_loop1. lia.
      + destruct ok; [left; lia|]. right. split; [done|]. split; [|done].
        match goal with |- (wacts ?x + _ + _ = _)%nat => change (wacts x) with (S (wacts rest)) end. lia.
  Qed.

  Lemma sum_insert ps k p p' : ps !! k = Some p →
    ∃ r, sum_list (wproc <$> ps) = (wproc p + r)%nat ∧ sum_list (wproc <$> <[k:=p']> ps) = (wproc p' + r)%nat.
  Proof.
    intros Hp. exists (sum_list (wproc <$> take k ps) + sum_list (wproc <$> drop (S k) ps))%nat. split.
    - rewrite <- (take_drop_middle _ _ _ Hp) at 1. rewrite fmap_app, sum_list_app. cbn. lia.
    - rewrite insert_take_drop by (by eapply lookup_lt_Some). rewrite fmap_app, sum_list_app. cbn. lia.
  Qed.
  Lemma work_step k s s' : pst k s = Some s' →
    (work s' < work s)%nat ∨ ((work s' = work s)%nat ∧ sNet s' = sNet s ∧ sLog s' = sLog s).
  Proof.
    intros (p & p' & net' & log' & Hp & Hs & ->)%pstep_inv. unfold work. cbn [sProcs sNet sLog].
    assert (H : ∃ r, sum_list (wproc <$> sProcs s) = (wproc p + r)%nat ∧ sum_list (wproc <$> <[k:=p']> (sProcs s)) = (wproc p' + r)%nat).
    { by apply sum_insert. }
    destruct H as (r & -> & ->). destruct (pSt_work _ _ _ _ _ _ Hs) as [H|(_ & H & -> & ->)]; [left; lia|right].
    split; [lia|done].
  Qed.
  Lemma work_prod k s s' p : pst k s = Some s' → sProcs s !! k = Some p → productive p → (work s' < work s)%nat.
  Proof.
    intros (p0 & p' & net' & log' & Hp0 & Hs & ->)%pstep_inv Hp Hpr. rewrite Hp in Hp0. injection Hp0 as <-. unfold work. cbn [sProcs sNet sLog].
    assert (H : ∃ r, sum_list (wproc <$> sProcs s) = (wproc p + r)%nat ∧ sum_list (wproc <$> <[k:=p']> (sProcs s)) = (wproc p' + r)%nat).
    { by apply sum_insert. }
    destruct H as (r & -> & ->). destruct (pSt_work _ _ _ _ _ _ Hs) as [H|(H & _)]; [lia|done].
  Qed.

  (** * Turns *)
  Notation aft := (after pst).
  Lemma after_add ks s i j : aft ks s (i + j) = aft (λ x, ks (i + x)%nat) (aft ks s i) j.
  Proof. induction j as [|j IH]; [by rewrite Nat.add_0_r|]. rewrite Nat.add_succ_r. cbn [after]. by rewrite IH. Qed.
  Lemma fair_shift N ks i : fair N ks → fair N (λ x, ks (i + x)%nat).
  Proof.
    intros H k Hk m. destruct (H k Hk (i + m)%nat) as (j & Hj & E). exists (j - i)%nat. split; [lia|]. rewrite <- E. f_equal. lia.
  Qed.
  Lemma linv_after N ks s i : linv N s → linv N (aft ks s i).
  Proof.
    intros H. induction i as [|i IH]; [done|]. cbn. unfold turn. destruct (pst (ks i) _) eqn:E; [by eapply linv_step|done].
  Qed.

  Lemma until N k s ks p r : linv N s → fair N ks → sProcs s !! k = Some p → pSt p (sNet s) (sLog s) = Some r →
    ∃ j, (work (aft ks s j) < work s)%nat ∨
      ∃ s0, sNet s0 = sNet s ∧ sLog s0 = sLog s ∧ sProcs s0 !! k = Some p ∧ work s0 = work s ∧
        pst k s0 = Some (aft ks s j).
  Proof.
    intros Hi Hf Hp Hr. destruct (Hf k) with (i := 0%nat) as (j0 & _ & Hj0).
    { rewrite <- (li_len _ _ Hi). by eapply lookup_lt_Some. }
    assert (Hmove : ∀ s0, sNet s0 = sNet s → sLog s0 = sLog s → sProcs s0 !! k = Some p → is_Some (pst k s0)).
    { intros s0 H1 H2 H3. unfold pstep. rewrite H3. cbn. rewrite H1, H2, Hr. destruct r as [[? ?] ?]. by eexists. }
    assert (H : ∀ i, (i <= j0)%nat → (∃ j, (work (aft ks s j) < work s)%nat ∨
      ∃ s0, sNet s0 = sNet s ∧ sLog s0 = sLog s ∧ sProcs s0 !! k = Some p ∧ work s0 = work s ∧ pst k s0 = Some (aft ks s j)) ∨
      (sNet (aft ks s i) = sNet s ∧ sLog (aft ks s i) = sLog s ∧ sProcs (aft ks s i) !! k = Some p ∧ work (aft ks s i) = work s)).
    { induction i as [|i IH]; intros Hle; [by right|].
      destruct IH as [H|(H1 & H2 & H3 & H4)]; [lia|by left|]. set (s0 := aft ks s i) in *.
      destruct (decide (ks i = k)) as [E|E].
      - left. exists (S i). right. exists s0. repeat (split; [done|]). cbn. fold s0. rewrite E. unfold turn.
        destruct (Hmove s0 H1 H2 H3) as [s1 Hs1]. by rewrite Hs1.
      - destruct (pst (ks i) s0) as [s1|] eqn:Es.
        + assert (E1 : aft ks s (S i) = s1) by (cbn; fold s0; unfold turn; by rewrite Es).
          destruct (work_step _ _ _ Es) as [Hw|(Hw & Hn1 & Hl1)].
          * left. exists (S i). left. rewrite E1. lia.
          * right. rewrite E1, Hw, Hn1, Hl1. repeat (split; [done|]). split; [|done].
            apply pstep_inv in Es as (q & q' & net' & log' & _ & _ & ->). cbn. by rewrite list_lookup_insert_ne.
        + right. assert (E1 : aft ks s (S i) = s0) by (cbn; fold s0; unfold turn; by rewrite Es). by rewrite E1. }
    destruct (H j0) as [?|(H1 & H2 & H3 & H4)]; [lia|done|]. exists (S j0). right. exists (aft ks s j0).
    repeat (split; [done|]). cbn. rewrite Hj0. unfold turn. destruct (Hmove _ H1 H2 H3) as [s1 Hs1]. by rewrite Hs1.
  Qed.

  Definition decreases (N : nat) (s : pstate) : Prop := ∀ ks, fair N ks → ∃ j, (work (aft ks s j) < work s)%nat.

  Lemma dec_prod N k s p r : linv N s → sProcs s !! k = Some p → pSt p (sNet s) (sLog s) = Some r → productive p → decreases N s.
  Proof.
    intros Hi Hp Hr Hpr ks Hf. destruct (until N k s ks p r Hi Hf Hp Hr) as (j & [H|(s0 & H1 & H2 & H3 & H4 & H5)]); [by exists j|].
    exists j. rewrite <- H4. by eapply work_prod.
  Qed.
  Lemma dec_spin N k s p p' : linv N s → sProcs s !! k = Some p → pSt p (sNet s) (sLog s) = Some (p', sNet s, sLog s) →
    (∀ s1, linv N s1 → sNet s1 = sNet s → sLog s1 = sLog s → sProcs s1 !! k = Some p' → work s1 = work s → decreases N s1) →
    decreases N s.
  Proof.
    intros Hi Hp Hr Hnext ks Hf. destruct (until N k s ks p _ Hi Hf Hp Hr) as (j & [H|(s0 & H1 & H2 & H3 & H4 & H5)]); [by exists j|].
    destruct (work_step _ _ _ H5) as [Hw|(Hw & _ & _)]; [exists j; lia|].
    pose proof H5 as H6. apply pstep_inv in H6 as (q & q' & net' & log' & Hq & Hs & E).
    rewrite H3 in Hq. injection Hq as <-. rewrite H1, H2, Hr in Hs. injection Hs as <- <- <-.
    destruct (Hnext (aft ks s j)) with (ks := λ x, ks (j + x)%nat) as [j' Hj'].
    - by apply linv_after.
    - by rewrite E.
    - by rewrite E.
    - rewrite E. cbn. apply list_lookup_insert. by eapply lookup_lt_Some.
    - lia.
    - by apply fair_shift.
    - exists (j + j')%nat. rewrite after_add. lia.
  Qed.

  (** * The waiting loops of Flush, when nothing is in flight *)
  Definition clean (log : list event) : Prop :=
    value log NumIndexingReqs = value log NumDocsIndexed ∧
    value log NumRemovingReqs * n = value log NumDocsRemoved ∧
    value log NumForceUpdatingReqs * n = value log NumDocsForceUpdated.
  Definition exits (N k : nat) (l : list act) (cond : list event → Z → bool → Prop) : Prop :=
    ∀ s cs reg ok, linv N s → clean (sLog s) → sProcs s !! k = Some (mkProc None cs l reg ok) →
      cond (sLog s) reg ok → decreases N s.
  Definition plainF (a : act) : bool := match a with FReset | FRead _ | FCmp _ => true | _ => false end.
  Definition fstep (log : list event) (a : act) (reg : Z) (ok : bool) : Z * bool :=
    match a with
    | FReset => (reg, true)
    | FRead c => (readVal n log c, ok)
    | FCmp c => (reg, ok && (reg =? value log c))
    | _ => (reg, ok)
    end.
  Lemma exits_plain N k a l (cond cond' : list event → Z → bool → Prop) : plainF a = true → exits N k l cond' →
    (∀ log reg ok, clean log → cond log reg ok → cond' log (fstep log a reg ok).1 (fstep log a reg ok).2) →
    exits N k (a :: l) cond.
  Proof.
    intros Ha He Hc s cs reg ok Hi Hcl Hp Hcond.
    apply (dec_spin N k s _ (mkProc None cs l (fstep (sLog s) a reg ok).1 (fstep (sLog s) a reg ok).2) Hi Hp).
    - destruct a; done.
    - intros s1 Hi1 Hn1 Hl1 Hp1 _. eapply He; [done| |done|]; rewrite Hl1; [done|]. by apply Hc.
  Qed.
  Definition anyc : list event → Z → bool → Prop := λ _ _ _, True.
  Definition okc : list event → Z → bool → Prop := λ _ _ ok, ok = true.
  Lemma exits_weaken N k l (c c' : list event → Z → bool → Prop) : exits N k l c' → (∀ log r o, c log r o → c' log r o) → exits N k l c.
  Proof. intros H Hc s cs reg ok Hi Hcl Hp Hco. eapply H; eauto. Qed.
  Lemma exits_any N k l1 l2 : Forall (λ a, plainF a = true) l1 → exits N k l2 anyc → exits N k (l1 ++ l2) anyc.
  Proof. induction 1; [done|]. intros H2. cbn. by eapply exits_plain; [done|by apply IHForall|]. Qed.
  Lemma exits_floop1_ok N k l : exits N k (FLoop1 :: l) okc.
  Proof. intros s cs reg ok Hi _ Hp ->. by eapply dec_prod. Qed.
  Lemma exits_floop2_ok N k l : exits N k (FLoop2 :: l) okc.
  Proof. intros s cs reg ok Hi _ Hp ->. by eapply dec_prod. Qed.

  Lemma exits_cmp N k c c' l : exits N k l okc → (∀ log, clean log → readVal n log c = value log c') →
    exits N k (FRead c :: FCmp c' :: l) okc.
  Proof.
    intros H Hc. eapply (exits_plain _ _ _ _ _ (λ log reg ok, ok = true ∧ reg = readVal n log c)); [done| |by intros log reg ok _ ->].
    eapply exits_plain; [done|exact H|]. intros log reg ok Hl [-> ->]. cbn. unfold okc. by apply Z.eqb_eq, Hc.
  Qed.
  Lemma exits_loop1 N k l : exits N k (loop1 ++ l) anyc.
  Proof.
    unfold flushLoop1. cbn [app]. eapply (exits_plain _ _ _ _ _ okc); [done| |done].
    assert (H2 : exits N k (FRead NumRemovingReqs :: FCmp NumDocsRemoved :: FLoop1 :: l) okc).
    { apply exits_cmp; [apply exits_floop1_ok|]. intros log (_ & H & _). exact H. }
    destruct reqsFirst; cbn [app]; (apply exits_cmp; [exact H2|]); intros log (H & _ & _); [exact H|by symmetry].
  Qed.
  Lemma exits_loop2 N k l : exits N k (flushLoop2 ++ l) anyc.
  Proof.
    unfold flushLoop2. cbn [app]. eapply (exits_plain _ _ _ _ _ okc); [done| |done].
    apply exits_cmp; [apply exits_floop2_ok|]. intros log (_ & _ & H). exact H.
  Qed.
  Lemma exits_floop1 N k l : exits N k (FLoop1 :: l) anyc.
  Proof.
    intros s cs reg ok Hi Hcl Hp _. destruct ok; [by eapply exits_floop1_ok|].
    eapply (dec_spin N k s _ (mkProc None cs (loop1 ++ l) reg true) Hi Hp); [done|].
    intros s1 Hi1 Hn1 Hl1 Hp1 _. eapply exits_loop1; [done| |done|done]. by rewrite Hl1.
  Qed.
  Lemma exits_floop2 N k l : exits N k (FLoop2 :: l) anyc.
  Proof.
    intros s cs reg ok Hi Hcl Hp _. destruct ok; [by eapply exits_floop2_ok|].
    eapply (dec_spin N k s _ (mkProc None cs (flushLoop2 ++ l) reg true) Hi Hp); [done|].
    intros s1 Hi1 Hn1 Hl1 Hp1 _. eapply exits_loop2; [done| |done|done]. by rewrite Hl1.
  Qed.
  (** Positions in Flush: in the first loop, or in the second *)
  Lemma f_positions a rest c : is_f a = true → a :: rest `suffix_of` callA c →
    (∃ l, Forall (λ a, plainF a = true) l ∧ a :: rest = l ++ FLoop1 :: flushTail) ∨
    (∃ l, Forall (λ a, plainF a = true) l ∧ a :: rest = l ++ [FLoop2]).
  Proof.
    intros Ha Hc. apply f_suffix in Hc; [|done]. destruct Hc as [-> [l E]].
    unfold flushLoop1 in E.
    Ltac pos E := first
      [ left; eexists []; split; [constructor|rewrite <- E; reflexivity]
      | left; eexists [_]; split; [|rewrite <- E; reflexivity]; repeat constructor
      | left; eexists [_; _]; split; [|rewrite <- E; reflexivity]; repeat constructor
      | left; eexists [_; _; _]; split; [|rewrite <- E; reflexivity]; repeat constructor
      | left; eexists [_; _; _; _]; split; [|rewrite <- E; reflexivity]; repeat constructor
      | left; eexists [_; _; _; _; _]; split; [|rewrite <- E; reflexivity]; repeat constructor
      | right; eexists []; split; [constructor|rewrite <- E; reflexivity]
      | right; eexists [_]; split; [|rewrite <- E; reflexivity]; repeat constructor
      | right; eexists [_; _]; split; [|rewrite <- E; reflexivity]; repeat constructor
      | right; eexists [_; _; _]; split; [|rewrite <- E; reflexivity]; repeat constructor ].
    destruct reqsFirst; cbn in E;
      repeat (destruct l as [|? l]; cbn in E; [first [pos E|injection E as <- _; discriminate Ha]|injection E as _ E]); by destruct l.
  Qed.
  Lemma flush_exits N k a rest c : is_f a = true → a :: rest `suffix_of` callA c → exits N k (a :: rest) anyc.
  Proof.
    intros Ha Hc. destruct (f_positions _ _ _ Ha Hc) as [(l & Hl & ->)|(l & Hl & ->)].
    - apply exits_any; [done|]. apply exits_floop1.
    - apply exits_any; [done|]. apply exits_floop2.
  Qed.

  (** * Somebody makes progress *)
  Lemma find_or {A} (b : A → bool) (l : list A) : (∃ k x, l !! k = Some x ∧ b x = true) ∨ Forall (λ x, b x = false) l.
  Proof.
    induction l as [|x l IH]; [by right|]. destruct (b x) eqn:E; [left; by exists 0%nat, x|].
    destruct IH as [(k & y & Hk & Hy)|H]; [left; by exists (S k), y|right; by constructor].
  Qed.
  Lemma takeFirst_some ch m net : (ch, m) ∈ net → is_Some (takeFirst ch net).
  Proof.
    induction net as [|[c m0] net IH]; [by intros ?%elem_of_nil|]. cbn. intros [E|H]%elem_of_cons.
    - injection E as -> ->. rewrite decide_True by done. by eexists.
    - destruct (decide (c = ch)); [by eexists|]. destruct (IH H) as [[m1 r] ->]. by eexists.
  Qed.
  Definition isSeg (ch : chan) : bool := match ch with CSeg => true | _ => false end.
  Notation reachp nseg progs := (pipe_reach murmur n only reqsFirst cap nseg progs).

  Lemma worker_takes N s ch m : linv N s → (ch, m) ∈ sNet s →
    (∀ k p, sProcs s !! k = Some p → pChan p = Some ch → pActs p = []) → decreases N s.
  Proof.
    intros Hi Hin Hidle. pose proof (li_net _ _ Hi) as Hnet. rewrite Forall_forall in Hnet. pose proof (Hnet _ Hin) as Hok. cbn in Hok.
    destruct (li_work _ _ Hi ch) as (k & p & Hp & Hc).
    { destruct Hok as [[-> _]|[? _]]; auto. }
    destruct (takeFirst_some _ _ _ Hin) as [[m1 r] Ht]. pose proof (Hidle k p Hp Hc) as Ha.
    eapply (dec_prod N k s p); [done|done| |].
    - unfold procStep. rewrite Ha, Hc, Ht. done.
    - unfold productive. by rewrite Ha.
  Qed.

  Lemma progress N nseg progs s : linv N s → reachp nseg progs s → quiescent s ∨ decreases N s.
  Proof.
    intros Hi Hr. pose proof (li_procs _ _ Hi) as HP.
    (* workers of leaf channels *)
    destruct (find_or (λ p, match pChan p, pActs p with Some ch, _ :: _ => negb (isSeg ch) | _, _ => false end) (sProcs s))
      as [(k & p & Hp & Hb)|F1].
    { right. pose proof (Forall_lookup_1 _ _ _ _ HP Hp) as Hok. unfold okp in Hok.
      destruct (pChan p) as [ch|] eqn:Ec; [|done]. destruct (pActs p) as [|a l] eqn:Ea; [done|].
      assert (Hd : do_act a). { destruct ch; [done|..]; destruct Hok as [_ HF]; by inversion HF. }
      destruct a; try done. eapply (dec_prod N k s p); [done|done| |].
      - unfold procStep. rewrite Ea. done.
      - unfold productive. by rewrite Ea. }
    (* requests in leaf channels *)
    destruct (find_or (λ cm, negb (isSeg cm.1)) (sNet s)) as [(k & [ch m] & Hk & Hb)|F2].
    { right. apply (worker_takes N s ch m Hi); [by eapply elem_of_list_lookup_2|]. intros k' p Hp Hc.
      pose proof (Forall_lookup_1 _ _ _ _ F1 Hp) as H1. cbn in H1, Hb. rewrite Hc in H1. destruct (pActs p); [done|]. congruence. }
    (* segmenters *)
    destruct (find_or (λ p, match pChan p, pActs p with Some ch, _ :: _ => isSeg ch | _, _ => false end) (sProcs s))
      as [(k & p & Hp & Hb)|F3].
    { right. pose proof (Forall_lookup_1 _ _ _ _ HP Hp) as Hok. unfold okp in Hok.
      destruct (pChan p) as [ch|] eqn:Ec; [|done]. destruct (pActs p) as [|a l] eqn:Ea; [done|]. destruct ch; try done.
      destruct Hok as [_ HF]. apply Forall_cons in HF as [Ha _]. destruct a as [|ch m| | | | |]; try done. destruct Ha as [Hl _].
      assert (Hq : (queued ch (sNet s) < cap ch)%nat).
      { assert (queued ch (sNet s) = 0%nat) as ->; [|specialize (Hcap ch); lia]. unfold queued.
        destruct (filter _ (sNet s)) as [|x f] eqn:Ef; [done|].
        assert (Hx : x ∈ filter (λ p0 : chan * msg, p0.1 = ch) (sNet s)) by (rewrite Ef; by left).
        apply elem_of_list_filter in Hx as [Hx1 Hx2]. rewrite Forall_forall in F2. apply F2 in Hx2. rewrite Hx1 in Hx2.
        by destruct ch. }
      eapply (dec_prod N k s p); [done|done| |].
      - unfold procStep. rewrite Ea. cbn zeta. rewrite decide_True by done. done.
      - unfold productive. by rewrite Ea. }
    (* requests to the segmenters *)
    destruct (sNet s) as [|[ch m] net] eqn:En.
    2: { right. apply (worker_takes N s ch m Hi); [rewrite En; by left|]. intros k p Hp Hc.
      pose proof (Forall_lookup_1 _ _ _ _ F3 Hp) as H1. apply Forall_cons in F2 as [H2 _]. cbn in H1, H2. rewrite Hc in H1.
      destruct (pActs p); [done|]. destruct ch; done. }
    (* clients that can go on *)
    destruct (find_or (λ p, match pChan p, pActs p with
      | None, [] => negb (bool_decide (length (pCalls p) = 0%nat)) | None, a :: _ => negb (is_f a) | _, _ => false end) (sProcs s))
      as [(k & p & Hp & Hb)|F4].
    { right. destruct (pChan p) as [ch|] eqn:Ec; [done|]. destruct (pActs p) as [|a l] eqn:Ea.
      - destruct (pCalls p) as [|c cs] eqn:Eq; [done|]. eapply (dec_prod N k s p); [done|done| |].
        + unfold procStep. rewrite Ea, Ec, Eq. done.
        + unfold productive. by rewrite Ea.
      - destruct a as [e|ch m| | | | |]; try done; eapply (dec_prod N k s p); try done.
        + unfold procStep. rewrite Ea. done.
        + unfold productive. by rewrite Ea.
        + unfold procStep. rewrite Ea, En. cbn zeta. rewrite decide_True; [done|]. specialize (Hcap ch). cbn. lia.
        + unfold productive. by rewrite Ea. }
    (* clients waiting in Flush *)
    destruct (find_or (λ p, match pChan p, pActs p with None, a :: _ => is_f a | _, _ => false end) (sProcs s))
      as [(k & p & Hp & Hb)|F5].
    { right.
      assert (Hz : ∀ pr, in_flight (pW n pr) (pReq pr) (pFin pr) s = 0).
      { intros pr. unfold in_flight. rewrite En. cbn [fmap list_fmap zsum foldr]. rewrite Z.add_0_r. apply zsum_zero.
        intros q Hq. apply elem_of_list_lookup in Hq as [j Hj].
        pose proof (Forall_lookup_1 _ _ _ _ HP Hj) as Hok. pose proof (Forall_lookup_1 _ _ _ _ F1 Hj) as H1.
        pose proof (Forall_lookup_1 _ _ _ _ F3 Hj) as H3. pose proof (Forall_lookup_1 _ _ _ _ F4 Hj) as H4.
        cbn in H1, H3, H4. unfold okp in Hok. unfold proc_owed. destruct (pActs q) as [|a l] eqn:Ea; [done|].
        destruct (pChan q) as [ch|]; [by destruct ch|]. destruct Hok as [c Hc]. apply negb_false_iff in H4.
        destruct (f_positions _ _ _ H4 Hc) as [(l1 & Hl1 & ->)|(l1 & Hl1 & ->)].
        - assert (H0 : ∀ w fin, zsum (act_owed w fin <$> l1) = 0).
          { intros w fin. apply zsum_zero. intros x Hx. rewrite Forall_forall in Hl1. apply Hl1 in Hx. by destruct x. }
          rewrite fmap_app, zsum_app, H0. destruct pr; [by destruct (not_counted _ _)..|].
          rewrite not_counted_app. cbn. by rewrite orb_true_r.
        - assert (H0 : ∀ w fin, zsum (act_owed w fin <$> l1) = 0).
          { intros w fin. apply zsum_zero. intros x Hx. rewrite Forall_forall in Hl1. apply Hl1 in Hx. by destruct x. }
          rewrite fmap_app, zsum_app, H0. by destruct (not_counted _ _). }
      assert (Hcl : clean (sLog s)).
      { unfold clean. pose proof (balance murmur n only reqsFirst cap Hn PDocs nseg progs s Hr) as B1.
        pose proof (balance murmur n only reqsFirst cap Hn PRems nseg progs s Hr) as B2.
        pose proof (balance murmur n only reqsFirst cap Hn PForced nseg progs s Hr) as B3.
        rewrite Hz in B1, B2, B3. cbn in B1, B2, B3. lia. }
      pose proof (Forall_lookup_1 _ _ _ _ HP Hp) as Hok. unfold okp in Hok. destruct p as [ch cs acts reg ok]. cbn in Hb, Hok.
      destruct ch as [ch|]; [done|]. destruct acts as [|a l]; [done|]. destruct Hok as [c Hc].
      by eapply (flush_exits N k a l c Hb Hc). }
    (* nobody *)
    left. split; [done|]. apply Forall_forall. intros q Hq. apply elem_of_list_lookup in Hq as [j Hj].
    pose proof (Forall_lookup_1 _ _ _ _ HP Hj) as Hok. pose proof (Forall_lookup_1 _ _ _ _ F1 Hj) as H1.
    pose proof (Forall_lookup_1 _ _ _ _ F3 Hj) as H3. pose proof (Forall_lookup_1 _ _ _ _ F4 Hj) as H4.
    pose proof (Forall_lookup_1 _ _ _ _ F5 Hj) as H5. cbn in H1, H3, H4, H5. unfold okp in Hok.
    destruct (pActs q) as [|a l] eqn:Ea.
    - split; [done|]. destruct (pChan q) as [ch|]; [by destruct ch; destruct Hok|]. by destruct (pCalls q).
    - destruct (pChan q) as [ch|]; [by destruct ch|]. rewrite H5 in H4. done.
  Qed.

  Lemma reach_after nseg progs ks s i : reachp nseg progs s → reachp nseg progs (aft ks s i).
  Proof.
    intros H. induction i as [|i IH]; [done|]. cbn. unfold turn. destruct (pst (ks i) _) eqn:E; [|done].
    unfold pipe_reach in *. eapply rtc_r; [exact IH|]. by exists (ks i).
  Qed.

  Lemma rest_lem nseg progs s ks : (1 <= nseg)%nat → reachp nseg progs s →
    fair (length progs + nseg + 4 * Z.to_nat n) ks → ∃ i, quiescent (aft ks s i).
  Proof.
    intros Hs Hr. set (N := (length progs + nseg + 4 * Z.to_nat n)%nat).
    assert (Hi : linv N s).
    { unfold pipe_reach in Hr. apply (rtc_ind_r (linv N) (pipeInit n nseg progs)) in Hr; [done|by apply linv_init|].
      intros s1 s2 _ [k Hk] IH. by eapply linv_step. }
    clearbody N. revert ks. remember (work s) as w eqn:Ew. revert s Hr Hi Ew.
    induction (lt_wf w) as [w _ IH]. intros s Hr Hi -> ks Hf.
    destruct (progress N nseg progs s Hi Hr) as [Hq|Hd]; [by exists 0%nat|].
    destruct (Hd ks Hf) as [j Hj].
    destruct (IH _ Hj (aft ks s j)) with (ks := λ x, ks (j + x)%nat) as [i Hq]; [by apply reach_after|by apply linv_after|done|by apply fair_shift|].
    exists (j + i)%nat. by rewrite after_add.
  Qed.

  (** * What has been done when everything is at rest *)
  Lemma rest_still k s : quiescent s → pst k s = None.
  Proof.
    intros [Hnet HF]. unfold pstep. destruct (sProcs s !! k) as [p|] eqn:Hp; [|done]. cbn.
    destruct (Forall_lookup_1 _ _ _ _ HF Hp) as [Ha Hc]. unfold procStep. rewrite Ha, Hc, Hnet. by destruct (pChan p).
  Qed.
  Lemma rest_log nseg progs s : reachp nseg progs s → quiescent s → sLog s ≡ₚ evsC murmur n only reqsFirst (mjoin progs).
  Proof.
    intros Hr [Hnet HF]. rewrite <- (reach_all _ _ _ _ _ _ _ _ Hr). unfold evsAll. rewrite Hnet. change (evsN murmur n only []) with (@nil event).
    rewrite app_nil_r. assert (mjoin (evsPr murmur n only reqsFirst <$> sProcs s) = []) as ->; [|by rewrite app_nil_r].
    induction HF as [|p ps [Ha Hc] _ IH]; [done|]. rewrite fmap_cons, mjoin_cons, IH. unfold evsPr. by rewrite Ha, Hc.
  Qed.
  Lemma omap_join {A B C} (g : B → option C) (f : A → list B) l : omap g (mjoin (f <$> l)) = mjoin ((λ x, omap g (f x)) <$> l).
  Proof. induction l as [|x l IH]; [done|]. rewrite !fmap_cons, !mjoin_cons, omap_app, IH. done. Qed.
  Lemma omap_one {A B} (f : A → option B) l : mjoin ((λ x, match f x with Some y => [y] | None => [] end) <$> l) = omap f l.
  Proof. induction l as [|x l IH]; [done|]. rewrite fmap_cons, mjoin_cons, IH. cbn. by destruct (f x). Qed.

  Lemma once_lem nseg progs s i : reachp nseg progs s → quiescent s → 0 <= i < n →
    omap doc_added (ixCalls i (sLog s)) ≡ₚ omap (asked_add murmur n i) (mjoin progs) ∧
    omap doc_removed (ixCalls i (sLog s)) ≡ₚ omap asked_removal (mjoin progs) ∧
    rkCalls i (sLog s) ≡ₚ omap (asked_rank murmur n only i) (mjoin progs).
  Proof.
    intros Hr Hq Hi. pose proof (rest_log _ _ _ Hr Hq) as Hl. repeat split.
    - rewrite (ixCalls_perm i _ _ Hl), ixCalls_calls by done. unfold ixStream. rewrite omap_join, <- omap_one.
      apply Permutation_refl'. f_equal. apply list_fmap_ext. intros _ c _. destruct c as [d f ct a fo|id fo|]; [|done..]. cbn.
      destruct (String.eqb_spec (DocId d) "0") as [E|E]; fold (seqb (DocId d) "0"); unfold seqb.
      + rewrite E. rewrite decide_False by (by intros [? _]). by destruct fo.
      + destruct (String.eqb_spec (DocId d) "0"); [done|]. rewrite (shardOf_mod murmur n) by done.
        destruct (Z.eqb_spec (u32 (murmur (String.append (DocId d) ct)) `mod` n) i).
        * rewrite decide_True by done. done.
        * rewrite decide_False by (by intros [_ ?]). by destruct fo.
    - rewrite (ixCalls_perm i _ _ Hl), ixCalls_calls by done. unfold ixStream. rewrite omap_join, <- omap_one.
      apply Permutation_refl'. f_equal. apply list_fmap_ext. intros _ c _. destruct c as [d f ct a fo|id fo|]; [|done..]. cbn.
      destruct (seqb (DocId d) "0"), (shardOf murmur n (DocId d) ct =? i), fo; done.
    - rewrite (rkCalls_perm i _ _ Hl), rkCalls_calls by done. unfold rkStream. rewrite <- omap_one.
      apply Permutation_refl'. f_equal. apply list_fmap_ext. intros _ c _. destruct c as [d f ct a fo|id fo|]; [..|done]; cbn; unfold seqb.
      + destruct (String.eqb_spec (DocId d) "0") as [E|E].
        * rewrite decide_False by (by intros [? _]). done.
        * rewrite (shardOf_mod murmur n) by done.
          destruct (Z.eqb_spec (u32 (murmur (String.append (DocId d) ct)) `mod` n) i).
          -- by rewrite decide_True by done.
          -- by rewrite decide_False by (by intros [_ ?]).
      + destruct (String.eqb_spec id "0") as [E|E]; [by rewrite decide_False by (by intros ?)|by rewrite decide_True by done].
  Qed.
End Live.
