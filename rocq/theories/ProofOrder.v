(** One segmenter: additions reach the indexer and the ranker of a shard in the order
    in which they entered the segmenter's channel. *)
From Verif Require Import ModelPipe SpecIndexer SpecRoute SpecPipe SpecEnd SpecUpdate ProofTopK ProofRoute ProofPipe ProofFlush ProofFlushThms ProofLive.

Section Order.
  Context (murmur : string → Z) (n : Z) (only reqsFirst : bool) (cap : chan → nat).
  Context (Hn : 1 <= n < 2^32).
  Notation callA := (callActs n reqsFirst).
  Notation hand := (handler murmur n only).
  Notation pst := (pstep murmur n only reqsFirst cap).
  Notation pSt := (procStep murmur n only reqsFirst cap).
  Notation evsA := (evsA murmur n only).
  Notation evsM := (evsM murmur n only).
  Notation reachp nseg progs := (pipe_reach murmur n only reqsFirst cap nseg progs).

  (** ** Which goroutine does what *)
  Definition chOf (m : msg) : chan :=
    match m with
    | MSeg _ => CSeg | MAdd i _ _ => CIxAdd i | MRem i _ _ => CIxRem i
    | MRank i (ROAdd _ _ _) => CRkAdd i | MRank i (RORemove _) => CRkRem i
    end.
  Definition chE (e : event) : option chan :=
    match e with
    | EvInc _ => None
    | EvIx i (OpAdd _ _) => Some (CIxAdd i) | EvIx i (OpRemove _ _) => Some (CIxRem i)
    | EvRk i (ROAdd _ _ _) => Some (CRkAdd i) | EvRk i (RORemove _) => Some (CRkRem i)
    end.
  Definition okact (pc : option chan) (a : act) : Prop :=
    match a with
    | ADo e => (chE e = None ∨ chE e = pc) ∧ pc ≠ Some CSeg
    | ASend ch m => ch = chOf m ∧ match ch with CSeg | CIxRem _ | CRkRem _ => pc = None | _ => pc = Some CSeg end
    | _ => pc = None
    end.
  Lemma hand_okact m : Forall (okact (Some (chOf m))) (hand m).
  Proof.
    destruct m as [c|i doc f|i id f|i o]; cbn.
    - destruct c as [d f ct a fo|id fo|]; cbn [segActs]; [|constructor..].
      destruct (seqb (DocId d) "0").
      + destruct fo; [|constructor]. apply Forall_fmap, Forall_true. by intros j.
      + apply Forall_cons. split; [done|]. apply Forall_app. split; [|by repeat constructor].
        destruct fo; [|constructor]. apply Forall_fmap, Forall_true. by intros j.
    - apply Forall_cons. split; [split; [by right|done]|]. destruct doc, f; repeat constructor; done.
    - apply Forall_cons. split; [split; [by right|done]|]. destruct (seqb id "0"), f; repeat constructor; done.
    - apply Forall_cons. split; [|constructor]. destruct o; (split; [by right|done]).
  Qed.
  Lemma incs_okact id f c : Forall (okact None) (incs id f c).
  Proof. unfold incs. destruct (seqb id "0"), f; repeat constructor; done. Qed.
  Lemma loop1_okact : Forall (okact None) (flushLoop1 reqsFirst).
  Proof. unfold flushLoop1. destruct reqsFirst; repeat constructor; done. Qed.
  Lemma loop2_okact : Forall (okact None) flushLoop2.
  Proof. repeat constructor; done. Qed.
  Lemma call_okact c : Forall (okact None) (callA c).
  Proof.
    destruct c as [d f ct a fo|id fo|]; cbn [callActs].
    - apply Forall_app. split; [apply incs_okact|]. by repeat constructor.
    - apply Forall_app. split; [apply incs_okact|]. apply Forall_join, Forall_fmap, Forall_true. intros j. cbn.
      destruct (seqb id "0"); repeat constructor; done.
    - apply Forall_app. split; [apply loop1_okact|]. apply Forall_app. split; [|apply loop2_okact].
      apply Forall_app. split; [apply incs_okact|]. by repeat constructor.
  Qed.

  (** ** Channels *)
  Definition chanMsgs (ch : chan) (net : list (chan * msg)) : list msg :=
    omap (λ p, if decide (p.1 = ch) then Some p.2 else None) net.
  Lemma chanMsgs_app ch l1 l2 : chanMsgs ch (l1 ++ l2) = chanMsgs ch l1 ++ chanMsgs ch l2.
  Proof. unfold chanMsgs. by rewrite omap_app. Qed.
  Lemma chanMsgs_take ch net m net' : takeFirst ch net = Some (m, net') →
    chanMsgs ch net = m :: chanMsgs ch net' ∧ ∀ ch', ch' ≠ ch → chanMsgs ch' net = chanMsgs ch' net'.
  Proof.
    revert m net'. induction net as [|[c m0] net IH]; intros m net'; [done|]. cbn.
    destruct (decide (c = ch)) as [->|Hne].
    - injection 1 as -> ->. split; [done|]. intros ch' Hne. by rewrite decide_False.
    - destruct (takeFirst ch net) as [[m1 rest]|]; [|done]. cbn. injection 1 as -> <-.
      destruct (IH m rest eq_refl) as [H1 H2]. unfold chanMsgs in *. cbn. split; [by rewrite H1, decide_False|].
      intros ch' Hc. by rewrite (H2 ch' Hc).
  Qed.

  Definition servers (ch : chan) (ps : list proc) : list proc := filter (λ p, pChan p = Some ch) ps.
  Definition hands (ch : chan) (ps : list proc) : list act := mjoin (pActs <$> servers ch ps).
  Definition single (ch : chan) (ps : list proc) : Prop := (length (servers ch ps) ≤ 1)%nat.
  Lemma hands_step ch ps k p p' : ps !! k = Some p → pChan p' = pChan p → single ch ps →
    single ch (<[k := p']> ps) ∧
    (pChan p = Some ch → hands ch ps = pActs p ∧ hands ch (<[k := p']> ps) = pActs p') ∧
    (pChan p ≠ Some ch → hands ch (<[k := p']> ps) = hands ch ps).
  Proof.
    intros Hp Hc. apply elem_of_list_split_length in Hp as (l1 & l2 & -> & ->).
    rewrite insert_app_r_alt, Nat.sub_diag by done. cbn [insert list_insert]. unfold single, hands, servers.
    rewrite !filter_app, !filter_cons, Hc. destruct (decide (pChan p = Some ch)) as [E|E].
    - rewrite !app_length. cbn [length]. intros Hs.
      destruct (filter _ l1); [|cbn in Hs; lia]. destruct (filter _ l2); [|cbn in Hs; lia].
      split; [cbn; lia|]. split; [|done]. intros _. cbn. by rewrite !app_nil_r.
    - intros Hs. done.
  Qed.

  (** ** One lane: a channel from the segmenter to a worker *)
  Section Lane.
    Context {B : Type} (g : event → option B) (ch : chan).
    Context (Hch : match ch with CIxAdd _ | CRkAdd _ => True | _ => False end).
    Context (Hg : ∀ e, chE e ≠ Some ch → g e = None).
    Definition lane (ps : list proc) (net : list (chan * msg)) (log : list event) : list B :=
      omap g log ++ omap g (evsA (hands ch ps)) ++ omap g (mjoin (evsM <$> chanMsgs ch net)) ++
      omap g (evsA (hands CSeg ps)) ++ omap g (mjoin (evsM <$> chanMsgs CSeg net)).

    Lemma g_acts pc l : Forall (okact pc) l → Forall (λ a, match a with ASend _ _ => False | _ => True end) l → pc ≠ Some ch → omap g (evsA l) = [].
    Proof.
      intros H1 H2 Hpc. induction H1 as [|a l Ha H1 IH]; [done|]. apply Forall_cons in H2 as [H0 H2].
      rewrite evsA_cons, omap_app, (IH H2), app_nil_r. destruct a; try done. cbn. rewrite Hg; [done|].
      destruct Ha as [[Ha|Ha] _]; rewrite Ha; [done|exact Hpc].
    Qed.
    Lemma g_msg m : chOf m ≠ ch → chOf m ≠ CSeg → omap g (evsM m) = [].
    Proof.
      intros H1 H2. rewrite evsM_hand. apply (g_acts (Some (chOf m))); [apply hand_okact| |congruence].
      destruct m as [c|i doc f|i id f|i o]; [done|..]; cbn.
      - destruct doc, f; by repeat constructor.
      - destruct (seqb id "0"), f; by repeat constructor.
      - by repeat constructor.
    Qed.

    Lemma lane_step ps k p p' net log net' log' : ps !! k = Some p → pSt p net log = Some (p', net', log') →
      single ch ps → single CSeg ps → Forall (okact (pChan p)) (pActs p) →
      Forall (λ cm, cm.1 = chOf cm.2) net →
      lane (<[k := p']> ps) net' log' = lane ps net log ++
        match pActs p with ASend CSeg m :: _ => omap g (evsM m) | _ => [] end.
    Proof.
      intros Hp Hs S1 S2 Hok Hnet.
      pose proof (procStep_chan murmur n only reqsFirst cap _ _ _ _ _ _ Hs) as Hc.
      destruct (hands_step ch ps k p p' Hp Hc S1) as (_ & A1 & A2).
      destruct (hands_step CSeg ps k p p' Hp Hc S2) as (_ & B1 & B2).
      assert (Hne : ch ≠ CSeg) by (by destruct ch).
      unfold procStep in Hs. destruct (pActs p) as [|a rest] eqn:Ea.
      - rewrite app_nil_r. destruct (pChan p) as [ch'|] eqn:Ec.
        + apply bind_Some in Hs as ([m net1] & Ht & [= <- <- <-]). cbn [pActs] in *.
          destruct (chanMsgs_take _ _ _ _ Ht) as [T1 T2]. unfold lane.
          assert (Hm : ch' = chOf m). { rewrite Forall_forall in Hnet. apply takeFirst_perm in Ht. apply (Hnet (ch', m)). rewrite Ht. by left. }
          destruct (decide (ch' = ch)) as [->|N1].
          { destruct (A1 eq_refl) as [-> ->]. rewrite B2 by congruence. rewrite (T2 CSeg) by done.
            rewrite T1. change (evsA []) with (@nil event). rewrite fmap_cons, mjoin_cons, omap_app, evsM_hand. cbn [omap list_omap app].
            by rewrite <- !app_assoc. }
          rewrite A2 by congruence. rewrite <- (T2 ch) by congruence.
          destruct (decide (ch' = CSeg)) as [->|N2].
          { destruct (B1 eq_refl) as [-> ->]. rewrite T1. change (evsA []) with (@nil event).
            rewrite fmap_cons, mjoin_cons, omap_app, evsM_hand. done. }
          rewrite B2 by congruence. rewrite <- (T2 CSeg) by congruence. done.
        + destruct (pCalls p) as [|c cs]; [done|]. injection Hs as <- <- <-. unfold lane. rewrite A2, B2 by done. done.
      - apply Forall_cons in Hok as [Ha Hok]. destruct a as [e|ch' m| | | | |].
        + injection Hs as <- <- <-. rewrite app_nil_r. cbn [pActs] in *. destruct Ha as [He Hseg]. unfold lane.
          rewrite B2 by done. rewrite omap_app. destruct (decide (pChan p = Some ch)) as [Ec|Ec].
          * destruct (A1 Ec) as [-> ->]. rewrite evsA_cons, omap_app. by rewrite <- !app_assoc.
          * rewrite A2 by done. assert (g e = None) as Hge. { apply Hg. destruct He as [-> | ->]; done. }
            cbn. rewrite Hge. by rewrite app_nil_r.
        + case_decide; [|done]. injection Hs as <- <- <-. cbn [pActs] in *. destruct Ha as [-> Hpc].
          unfold lane. rewrite !chanMsgs_app.
          assert (HM : ∀ c, chanMsgs c [(chOf m, m)] = if decide (chOf m = c) then [m] else []). { intros c. cbn. by destruct (decide _). }
          rewrite !HM. destruct (chOf m) as [|j|j|j|j] eqn:Em.
          * rewrite A2, B2 by congruence. rewrite decide_False by congruence. rewrite app_nil_r.
            rewrite decide_True by done. rewrite fmap_app, join_app, omap_app. cbn [fmap list_fmap mjoin list_join]. rewrite app_nil_r.
            by rewrite !app_assoc.
          * destruct (B1 Hpc) as [-> ->]. rewrite A2 by congruence. rewrite (decide_False (P := CIxAdd j = CSeg)) by done.
            rewrite !app_nil_r. rewrite evsA_cons, omap_app. cbn [evs].
            destruct (decide (CIxAdd j = ch)) as [E|E].
            -- rewrite fmap_app, join_app, omap_app. cbn [fmap list_fmap mjoin list_join]. rewrite app_nil_r. by rewrite <- !app_assoc.
            -- rewrite app_nil_r. rewrite (g_msg m) by (rewrite Em; done). done.
          * rewrite A2, B2 by congruence. rewrite !decide_False by (intros ?; subst; done). by rewrite !app_nil_r.
          * destruct (B1 Hpc) as [-> ->]. rewrite A2 by congruence. rewrite (decide_False (P := CRkAdd j = CSeg)) by done.
            rewrite !app_nil_r. rewrite evsA_cons, omap_app. cbn [evs].
            destruct (decide (CRkAdd j = ch)) as [E|E].
            -- rewrite fmap_app, join_app, omap_app. cbn [fmap list_fmap mjoin list_join]. rewrite app_nil_r. by rewrite <- !app_assoc.
            -- rewrite app_nil_r. rewrite (g_msg m) by (rewrite Em; done). done.
          * rewrite A2, B2 by congruence. rewrite !decide_False by (intros ?; subst; done). by rewrite !app_nil_r.
        + injection Hs as <- <- <-. unfold lane. cbn in Ha. rewrite A2, B2 by congruence. by rewrite app_nil_r.
        + injection Hs as <- <- <-. unfold lane. cbn in Ha. rewrite A2, B2 by congruence. by rewrite app_nil_r.
        + injection Hs as <- <- <-. unfold lane. cbn in Ha. rewrite A2, B2 by congruence. by rewrite app_nil_r.
        + injection Hs as <- <- <-. unfold lane. cbn in Ha. rewrite A2, B2 by congruence. by rewrite app_nil_r.
        + injection Hs as <- <- <-. unfold lane. cbn in Ha. rewrite A2, B2 by congruence. by rewrite app_nil_r.
    Qed.
  End Lane.

  (** ** Each worker channel has one worker *)
  Lemma distinct_single ch (ps : list proc) : NoDup (omap pChan ps) → single ch ps.
  Proof.
    unfold single, servers. induction ps as [|p ps IH]; intros HN; [cbn; lia|]. rewrite filter_cons.
    cbn in HN. destruct (decide (pChan p = Some ch)) as [E|E].
    - rewrite E in HN. apply NoDup_cons in HN as [HN _].
      assert (filter (λ p, pChan p = Some ch) ps = []) as ->; [|done].
      destruct (filter (λ p, pChan p = Some ch) ps) as [|q l] eqn:Ef; [done|]. destruct HN.
      assert (Hq : q ∈ filter (λ p, pChan p = Some ch) ps) by (rewrite Ef; by left).
      apply elem_of_list_filter in Hq as [Hq Hi]. apply elem_of_list_omap. eauto.
    - apply IH. destruct (pChan p); [by apply NoDup_cons in HN as [_ ?]|done].
  Qed.
  Lemma chans_insert (ps : list proc) (k : nat) p p' : ps !! k = Some p → pChan p' = pChan p → omap pChan (<[k := p']> ps) = omap pChan ps.
  Proof.
    intros Hp Hc. apply elem_of_list_split_length in Hp as (l1 & l2 & -> & ->).
    rewrite insert_app_r_alt, Nat.sub_diag by done. cbn [insert list_insert]. rewrite !omap_app. cbn. by rewrite Hc.
  Qed.
  Lemma chans_init progs : NoDup (omap pChan (sProcs (pipeInit n 1 progs))).
  Proof.
    unfold pipeInit. cbn [sProcs]. rewrite !omap_app. cbn [omap list_omap replicate worker pChan].
    assert (omap pChan (client <$> progs) = []) as ->. { induction progs as [|q progs IH]; [done|]. cbn. by apply IH. }
    cbn [app].
    assert (H : ∀ l, NoDup l →
      NoDup (omap pChan (mjoin ((λ i, [worker (CIxAdd i); worker (CIxRem i); worker (CRkAdd i); worker (CRkRem i)]) <$> l))) ∧
      ∀ ch, ch ∈ omap pChan (mjoin ((λ i, [worker (CIxAdd i); worker (CIxRem i); worker (CRkAdd i); worker (CRkRem i)]) <$> l)) →
        ∃ i, i ∈ l ∧ ch ∈ [CIxAdd i; CIxRem i; CRkAdd i; CRkRem i]).
    { induction 1 as [|i l Hi Hl [IH1 IH2]]; [split; [constructor|]; by intros ch ?%elem_of_nil|].
      rewrite fmap_cons, mjoin_cons, omap_app.
      change (omap pChan [worker (CIxAdd i); worker (CIxRem i); worker (CRkAdd i); worker (CRkRem i)]) with [CIxAdd i; CIxRem i; CRkAdd i; CRkRem i].
      split.
      - apply NoDup_app. split.
        + assert (HN : ∀ (x : chan) l, x ∉ l → NoDup l → NoDup (x :: l)) by (intros; by apply NoDup_cons).
          apply HN; [rewrite !elem_of_cons, elem_of_nil; naive_solver|]. apply HN; [rewrite !elem_of_cons, elem_of_nil; naive_solver|].
          apply HN; [rewrite !elem_of_cons, elem_of_nil; naive_solver|]. apply NoDup_singleton.
        + split; [|done]. intros ch H1 (j & Hj & H2)%IH2.
          rewrite !elem_of_cons, elem_of_nil in H1. rewrite !elem_of_cons, elem_of_nil in H2.
          destruct H1 as [->|[->|[->|[->|[]]]]], H2 as [[=]|[[=]|[[=]|[[=]|[]]]]]; by subst.
      - intros ch [H|H]%elem_of_app; [exists i; split; [by left|done]|].
        apply IH2 in H as (j & Hj & H). exists j. split; [by right|done]. }
    destruct (H (shards n)) as [H1 H2]; [apply NoDup_seqZ|]. apply NoDup_cons. split; [|done].
    intros (i & _ & Hi)%H2. rewrite !elem_of_cons, elem_of_nil in Hi. by destruct Hi as [[=]|[[=]|[[=]|[[=]|[]]]]].
  Qed.

  (** ** The requests to the segmenter *)
  Definition qmsg (c : ecall) : option ecall :=
    match c with EIndex _ _ _ _ _ => Some c | ERemove _ _ => None | EFlush => Some zeroCall end.
  Definition segSends (l : list act) : list ecall :=
    omap (λ a, match a with ASend CSeg (MSeg c) => Some c | _ => None end) l.
  Lemma segSends_app l1 l2 : segSends (l1 ++ l2) = segSends l1 ++ segSends l2.
  Proof. unfold segSends. by rewrite omap_app. Qed.
  Lemma segSends_call c : segSends (callA c) = match qmsg c with Some z => [z] | None => [] end.
  Proof.
    assert (HI : ∀ id f c, segSends (incs id f c) = []). { intros id f c'. unfold incs. by destruct (seqb id "0"), f. }
    destruct c as [d f ct a fo|id fo|]; cbn [callActs qmsg].
    - unfold indexActs. by rewrite segSends_app, HI.
    - rewrite segSends_app, HI. cbn [app]. induction (shards n) as [|j l IH]; [done|].
      rewrite fmap_cons, mjoin_cons, segSends_app, IH. by destruct (seqb id "0").
    - unfold indexActs. rewrite !segSends_app, HI. unfold flushLoop1. by destruct reqsFirst.
  Qed.

  Record oinv (progs : list (list ecall)) (s : pstate) (ls : list (list ecall)) (cs : list ecall) : Prop := {
    oi_acts : Forall (λ p, Forall (okact (pChan p)) (pActs p)) (sProcs s);
    oi_net : Forall (λ cm, cm.1 = chOf cm.2) (sNet s);
    oi_chans : NoDup (omap pChan (sProcs s));
    oi_merge : interleaved ls cs;
    oi_len : length ls = length progs;
    oi_client : ∀ k p, sProcs s !! k = Some p → pChan p = None → (k < length progs)%nat;
    oi_prog : ∀ k prog, progs !! k = Some prog → ∃ p l pend, sProcs s !! k = Some p ∧ pChan p = None ∧ ls !! k = Some l ∧
      filter (λ c, not_removal c = true) prog = l ++ pend ++ filter (λ c, not_removal c = true) (pCalls p) ∧
      qmsg <$> pend = Some <$> segSends (pActs p);
    oi_lane : ∀ (B : Type) (g : event → option B) ch, match ch with CIxAdd _ | CRkAdd _ => True | _ => False end →
      (∀ e, chE e ≠ Some ch → g e = None) →
      lane g ch (sProcs s) (sNet s) (sLog s) = omap g (mjoin (evsM ∘ MSeg <$> omap qmsg cs)) }.

  Lemma oinv_init progs : oinv progs (pipeInit n 1 progs) (replicate (length progs) []) [].
  Proof.
    split.
    - apply Forall_forall. intros p Hp. assert (pActs p = []) as ->; [|constructor]. cbn in Hp.
      apply elem_of_app in Hp as [(q & -> & _)%elem_of_list_fmap|Hp]; [done|].
      apply elem_of_cons in Hp as [->|Hp]; [done|]. apply elem_of_list_join in Hp as (l & Hp & (i & -> & _)%elem_of_list_fmap).
      rewrite !elem_of_cons, elem_of_nil in Hp. by destruct Hp as [->|[->|[->|[->|[]]]]].
    - constructor.
    - apply chans_init.
    - constructor. apply Forall_replicate. done.
    - by rewrite replicate_length.
    - intros k p Hp Hc. cbn in Hp. destruct (decide (k < length progs)%nat) as [H|H]; [done|].
      rewrite lookup_app_r in Hp by (rewrite fmap_length; lia). apply elem_of_list_lookup_2 in Hp.
      apply elem_of_cons in Hp as [->|Hp]; [done|]. apply elem_of_list_join in Hp as (l & Hp & (i & -> & _)%elem_of_list_fmap).
      rewrite !elem_of_cons, elem_of_nil in Hp. by destruct Hp as [->|[->|[->|[->|[]]]]].
    - intros k prog Hk. exists (client prog), [], []. split.
      { cbn. rewrite lookup_app_l by (rewrite fmap_length; by eapply lookup_lt_Some). by rewrite list_lookup_fmap, Hk. }
      split; [done|]. split; [apply lookup_replicate; split; [done|by eapply lookup_lt_Some]|]. done.
    - intros B g ch Hc Hg. unfold lane. cbn [sLog sNet pipeInit]. change (chanMsgs ?c []) with (@nil msg).
      assert (H0 : ∀ c, evsA (hands c (sProcs (pipeInit n 1 progs))) = []).
      { intros c. unfold hands. assert (HF : Forall (λ p, pActs p = []) (servers c (sProcs (pipeInit n 1 progs)))).
        { apply Forall_forall. intros p [_ Hp]%elem_of_list_filter. cbn in Hp.
          apply elem_of_app in Hp as [(q & -> & _)%elem_of_list_fmap|Hp]; [done|].
          apply elem_of_cons in Hp as [->|Hp]; [done|]. apply elem_of_list_join in Hp as (l & Hp & (i & -> & _)%elem_of_list_fmap).
          rewrite !elem_of_cons, elem_of_nil in Hp. by destruct Hp as [->|[->|[->|[->|[]]]]]. }
        induction HF as [|p l Hp HF IH]; [done|]. rewrite fmap_cons, mjoin_cons, Hp. exact IH. }
      by rewrite !H0.
  Qed.

  Lemma okact_step p net log p' net' log' : pSt p net log = Some (p', net', log') → Forall (okact (pChan p)) (pActs p) →
    Forall (λ cm, cm.1 = chOf cm.2) net → Forall (okact (pChan p')) (pActs p') ∧ Forall (λ cm, cm.1 = chOf cm.2) net'.
  Proof.
    intros Hs Ha Hnet. unfold procStep in Hs. destruct (pActs p) as [|a rest] eqn:Ea.
    - destruct (pChan p) as [ch|] eqn:Ec.
      + apply bind_Some in Hs as ([m net1] & Ht & [= <- <- <-]). cbn. apply takeFirst_perm in Ht. rewrite Ht in Hnet.
        apply Forall_cons in Hnet as [E Hnet]. cbn in E. subst ch. split; [apply hand_okact|done].
      + destruct (pCalls p); [done|]. injection Hs as <- <- <-. cbn. split; [apply call_okact|done].
    - apply Forall_cons in Ha as [Ha Hr]. destruct a; try (injection Hs as <- <- <-; done).
      + case_decide; [|done]. injection Hs as <- <- <-. cbn. split; [done|]. apply Forall_app. split; [done|].
        apply Forall_singleton. by destruct Ha.
      + injection Hs as <- <- <-. cbn [pChan pActs okact] in *. split; [|done]. rewrite Ha in *. destruct (pOk p); [done|]. exact (Forall_app_2 _ (flushLoop1 reqsFirst) rest loop1_okact Hr).
      + injection Hs as <- <- <-. cbn [pChan pActs okact] in *. split; [|done]. rewrite Ha in *. destruct (pOk p); [done|]. exact (Forall_app_2 _ flushLoop2 rest loop2_okact Hr).
  Qed.

  Definition sentBy (l : list act) : option ecall := match l with ASend CSeg (MSeg z) :: _ => Some z | _ => None end.
  Lemma sends_step p net log p' net' log' : pSt p net log = Some (p', net', log') → pChan p = None →
    (∃ c, pActs p = [] ∧ pCalls p = c :: pCalls p' ∧ pActs p' = callA c) ∨
    (pActs p ≠ [] ∧ pCalls p' = pCalls p ∧
     segSends (pActs p) = match sentBy (pActs p) with Some z => [z] | None => [] end ++ segSends (pActs p')).
  Proof.
    intros Hs Hc. unfold procStep in Hs. destruct (pActs p) as [|a rest] eqn:Ea.
    - left. rewrite Hc in Hs. destruct (pCalls p) as [|c cs]; [done|]. injection Hs as <- <- <-. by exists c.
    - right. split; [done|]. destruct a as [e|ch m| | | | |]; try (injection Hs as <- <- <-; done).
      + case_decide; [|done]. injection Hs as <- <- <-. split; [done|]. cbn. by destruct ch, m.
      + injection Hs as <- <- <-. split; [done|]. cbn. destruct (pOk p); [done|]. unfold flushLoop1. by destruct reqsFirst.
      + injection Hs as <- <- <-. split; [done|]. cbn. by destruct (pOk p).
  Qed.

  Lemma oinv_step progs s s' ls cs k : oinv progs s ls cs → pst k s = Some s' → ∃ ls' cs', oinv progs s' ls' cs'.
  Proof.
    intros [I1 I2 I3 I4 I5 I6 I7 I8] (p & p' & net' & log' & Hp & Hs & ->)%pstep_inv.
    pose proof (procStep_chan murmur n only reqsFirst cap _ _ _ _ _ _ Hs) as Hc.
    assert (Hok : Forall (okact (pChan p)) (pActs p)) by exact (proj1 (Forall_lookup _ _) I1 k p Hp).
    destruct (okact_step _ _ _ _ _ _ Hs Hok I2) as [Hok' I2'].
    assert (I1' : Forall (λ p, Forall (okact (pChan p)) (pActs p)) (<[k:=p']> (sProcs s))) by by apply Forall_insert.
    assert (I3' : NoDup (omap pChan (<[k:=p']> (sProcs s)))) by by rewrite (chans_insert _ _ _ _ Hp Hc).
    assert (I6' : ∀ j q, <[k:=p']> (sProcs s) !! j = Some q → pChan q = None → (j < length progs)%nat).
    { intros j q Hj Hq. apply list_lookup_insert_Some in Hj as [(<- & <- & _)|[_ Hj]]; [|by eapply I6]. eapply I6; [done|congruence]. }
    assert (HL : ∀ (B : Type) (g : event → option B) ch, match ch with CIxAdd _ | CRkAdd _ => True | _ => False end →
      (∀ e, chE e ≠ Some ch → g e = None) →
      lane g ch (<[k:=p']> (sProcs s)) net' log' = omap g (mjoin (evsM ∘ MSeg <$> omap qmsg cs)) ++
        match pActs p with ASend CSeg m :: _ => omap g (evsM m) | _ => [] end).
    { intros B g ch H1 H2. rewrite <- (I8 B g ch H1 H2). by eapply lane_step; try done; apply distinct_single. }
    clear I1 I8 I3.
    destruct (pChan p) as [ch0|] eqn:Ec.
    { exists ls, cs. split; try done.
      - intros j prog Hj. destruct (I7 j prog Hj) as (q & l & pend & Q1 & Q2 & Q3). exists q, l, pend.
        split; [|done]. cbn [sProcs]. rewrite list_lookup_insert_ne; [done|]. intros <-. congruence.
      - intros B g ch H1 H2. cbn [sProcs sNet sLog]. rewrite (HL B g ch H1 H2). destruct (pActs p) as [|[e|ch' m| | | | |] rest]; try (by rewrite app_nil_r).
        apply Forall_cons in Hok as [[_ Hx] _]. destruct ch'; try (by rewrite app_nil_r). done. }
    pose proof (I6 k p Hp Ec) as Hlt. apply lookup_lt_is_Some in Hlt as [prog Hprog].
    destruct (I7 k prog Hprog) as (q & l & pend & Q1 & Q2 & Q3 & Q4 & Q5). rewrite Hp in Q1. injection Q1 as <-.
    assert (Hoth : ∀ ls' : list (list ecall), (∀ j, j ≠ k → ls' !! j = ls !! j) → ∀ j prog', progs !! j = Some prog' → j ≠ k →
      ∃ p0 (l pend : list ecall), <[k:=p']> (sProcs s) !! j = Some p0 ∧ pChan p0 = None ∧ ls' !! j = Some l ∧
      filter (λ c, not_removal c = true) prog' = l ++ pend ++ filter (λ c, not_removal c = true) (pCalls p0) ∧
      qmsg <$> pend = Some <$> segSends (pActs p0)).
    { intros ls' Hls j prog' Hj Hne. destruct (I7 j prog' Hj) as (p0 & l0 & pend0 & R1 & R2 & R3 & R4). exists p0, l0, pend0.
      rewrite list_lookup_insert_ne by done. split; [done|]. split; [done|]. by rewrite Hls. }
    assert (Hself : <[k:=p']> (sProcs s) !! k = Some p') by (apply list_lookup_insert; by eapply lookup_lt_Some).
    destruct (sends_step _ _ _ _ _ _ Hs Ec) as [(c & E1 & E2 & E3)|(E1 & E2 & E3)].
    - exists ls, cs. split; try done.
      + intros j prog' Hj. destruct (decide (j = k)) as [->|Hne]; [|by apply Hoth]. rewrite Hprog in Hj. injection Hj as <-.
        rewrite E1 in Q5. cbn in Q5. apply fmap_nil_inv in Q5 as ->.
        exists p', l, (filter (λ c, not_removal c = true) [c]). split; [done|]. split; [by rewrite Hc|]. split; [done|]. split.
        * rewrite Q4, E2. cbn [app]. change (c :: pCalls p') with ([c] ++ pCalls p'). by rewrite filter_app.
        * rewrite E3, segSends_call, filter_cons. by destruct c; cbn.
      + intros B g ch H1 H2. cbn [sProcs sNet sLog]. rewrite (HL B g ch H1 H2), E1. by rewrite app_nil_r.
    - rewrite E3 in Q5. destruct (sentBy (pActs p)) as [z|] eqn:Ez.
      + destruct pend as [|c pend]; [done|]. cbn in Q5. injection Q5 as Qc Q5.
        exists (<[k := l ++ [c]]> ls), (cs ++ [c]). split; try done.
        * by econstructor.
        * by rewrite insert_length.
        * intros j prog' Hj. destruct (decide (j = k)) as [->|Hne].
          2:{ apply Hoth; [|done|done]. intros j' Hj'. by apply list_lookup_insert_ne. }
          rewrite Hprog in Hj. injection Hj as <-. exists p', (l ++ [c]), pend. split; [done|]. split; [by rewrite Hc|].
          split; [apply list_lookup_insert; by eapply lookup_lt_Some|]. split; [|done]. rewrite Q4, E2. by rewrite <- !app_assoc.
        * intros B g ch H1 H2. cbn [sProcs sNet sLog]. rewrite (HL B g ch H1 H2), omap_app. cbn [omap list_omap]. rewrite Qc, fmap_app, join_app, omap_app. f_equal.
          unfold sentBy in Ez. destruct (pActs p) as [|[e|[] []| | | | |] rest]; try done. injection Ez as ->. cbn. by rewrite app_nil_r.
      + cbn [app] in Q5. exists ls, cs. split; try done.
        * intros j prog' Hj. destruct (decide (j = k)) as [->|Hne]; [|by apply Hoth]. rewrite Hprog in Hj. injection Hj as <-.
          exists p', l, pend. split; [done|]. split; [by rewrite Hc|]. split; [done|]. by rewrite E2.
        * intros B g ch H1 H2. cbn [sProcs sNet sLog]. rewrite (HL B g ch H1 H2).
          destruct (pActs p) as [|[e|ch' m| | | | |] rest]; try (by rewrite app_nil_r).
          apply Forall_cons in Hok as [[Hx _] _]. destruct ch'; try (by rewrite app_nil_r). destruct m as [z| | |j []]; done.
  Qed.

  Lemma oinv_reach progs s : reachp 1 progs s → ∃ ls cs, oinv progs s ls cs.
  Proof.
    unfold pipe_reach. intros H. apply rtc_ind_r with (P := λ s, ∃ ls cs, oinv progs s ls cs) in H; [done| |].
    - eexists _, _. apply oinv_init.
    - intros s1 s2 _ [k Hk] (ls & cs & IH). by eapply oinv_step.
  Qed.
End Order.
