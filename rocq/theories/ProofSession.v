(** Sessions of the engine: what the start on non-empty files leaves. *)
From Verif Require Import ModelSession SpecIndexer SpecRank SpecRoute SpecPipe SpecStore SpecWhole SpecSession
  ProofTopK ProofRanker ProofRoute ProofPipe ProofBlocks ProofFlush ProofFlushThms ProofLive ProofWhole ProofWholeThms ProofWholeLive.

Section Session.
  Context (murmur : string → Z) (n : Z) (only reqsFirst : bool) (cap : chan → nat).
  Context (accepts : string → string → bool) (encode : DocData → option string) (nS : Z) (reqsFirst2 : bool).
  Notation preach := (pipe_reach murmur n only reqsFirst cap).
  Notation pipeSt := (pipeStep murmur n only reqsFirst cap).
  Notation wstep := (wholeStep murmur n only reqsFirst cap accepts encode nS reqsFirst2).
  Notation sreachp := (session_reach murmur n only reqsFirst cap accepts encode nS reqsFirst2).
  Notation isW := (isW murmur n only).

  (** * More clients that have not started *)
  Definition fr (G : list (list ecall)) (s : pstate) : pstate := mkPState ((client <$> G) ++ sProcs s) (sNet s) (sLog s).
  Lemma fr_rtc G s s' : rtc pipeSt s s' → rtc pipeSt (fr G s) (fr G s').
  Proof.
    induction 1 as [|x y z [k Hk] _ IH]; [apply rtc_refl|]. eapply rtc_l; [|exact IH]. exists (length (client <$> G) + k)%nat.
    unfold pstep in *. cbn [fr sProcs sNet sLog]. rewrite lookup_app_r, Nat.add_comm, Nat.add_sub by lia.
    destruct (sProcs x !! k) as [p|]; [|done]. cbn [mbind option_bind] in *. destruct (procStep _ _ _ _ _ _ _ _) as [[[p' net'] log']|]; [|done].
    cbn [mbind option_bind] in *. injection Hk as <-. cbn [sProcs sNet sLog]. unfold fr. cbn [sProcs sNet sLog]. f_equal. f_equal.
    by rewrite Nat.add_comm, insert_app_r.
  Qed.
  Lemma fr_reach G nseg recs p : preach nseg recs p → preach nseg (G ++ recs) (fr G p).
  Proof.
    intros H. unfold pipe_reach in *. replace (pipeInit n nseg (G ++ recs)) with (fr G (pipeInit n nseg recs)); [by apply fr_rtc|].
    unfold fr, pipeInit. cbn [sProcs sNet sLog]. by rewrite fmap_app, <-!app_assoc.
  Qed.

  (** * Which processes there are *)
  Lemma chans nseg progs s : preach nseg progs s → pChan <$> sProcs s = pChan <$> sProcs (pipeInit n nseg progs).
  Proof.
    intros H. unfold pipe_reach in H. revert s H. apply (rtc_ind_r (R := pipeSt)); [done|]. intros y z _ [k Hk] IH. rewrite <-IH.
    apply pstep_inv in Hk as (p & p' & net' & log' & Hp & Hs & ->). cbn [sProcs]. rewrite list_fmap_insert.
    apply list_insert_id. rewrite list_lookup_fmap, Hp. cbn. by rewrite (procStep_chan _ _ _ _ _ _ _ _ _ _ _ Hs).
  Qed.
  Lemma workers_ok (Hn : 1 <= n < 2^32) nseg progs s : preach nseg progs s → Forall (λ w, isW w ∧ wk_ok w) (drop (length progs) (sProcs s)).
  Proof.
    intros H. unfold pipe_reach in H. revert s H. apply (rtc_ind_r (R := pipeSt)).
    - cbn [pipeInit sProcs]. rewrite drop_app_le, (drop_ge (client <$> progs)) by (rewrite fmap_length; lia). cbn [app].
      apply Forall_and. split; [exact (workers_isW murmur n only nseg)|]. apply Forall_app. split.
      + apply Forall_replicate. split; [done|]. split; [done|constructor].
      + apply Forall_join, Forall_fmap, Forall_true. intros i. repeat constructor; done.
    - intros y z _ [k Hk] IH. apply pstep_inv in Hk as (p & p' & net' & log' & Hp & Hs & ->). cbn [sProcs].
      destruct (decide (k < length progs)%nat) as [Hlt|Hge]; [by rewrite drop_insert_gt|].
      rewrite drop_insert_le by lia. apply Forall_insert; [done|].
      assert (Hl : drop (length progs) (sProcs y) !! (k - length progs)%nat = Some p).
      { rewrite lookup_drop. by replace (length progs + (k - length progs))%nat with k by lia. }
      pose proof (Forall_lookup_1 _ _ _ _ IH Hl) as Hw.
      destruct Hw as [Hw1 Hw2]. split; [by eapply (worker_step murmur n only reqsFirst cap) in Hs as [? _]|by eapply wk_step in Hs as [? _]].
  Qed.

  (** * The start of a session *)
  Section Start.
    Context (Hn : 1 <= n < 2^32) (nseg : nat) (recs : list (list ecall)) (p : pstate) (Hp : preach nseg recs p) (Hrec : recovered (length recs) p).
    Context (progs : list (list wcall)).
    Notation s1 := (sessionInit nS (length recs) p progs).
    Notation start := (fr (pipeProg <$> progs) p).
    Notation PR := (take (length recs) (sProcs p)).

    Lemma start_reach : preach nseg ((pipeProg <$> progs) ++ recs) start.
    Proof. by apply fr_reach. Qed.
    Lemma start_pinv b : pinv murmur n only reqsFirst cap s1 b start PR.
    Proof.
      exists start, (client <$> (pipeProg <$> progs)). split; [apply rtc_refl|]. cbn [sessionInit wNet wLog wProcs wClients fr sNet sLog sProcs].
      split; [done|]. split; [done|]. split; [by rewrite take_drop|].
      split; [by rewrite !fmap_length|]. intros k c q Hc Hq. rewrite !list_lookup_fmap in *. destruct (progs !! k) as [cs|]; [|done].
      injection Hc as <-. injection Hq as <-. exists [], []. split; [split; [done|split; [apply suffix_nil|constructor]]|].
      repeat (split; [done|]). right. split; [by right|]. done.
    Qed.
    Lemma nreqs_rep k : numReqs (replicate k EvReq ++ replicate k EvStored) = Z.of_nat k ∧ numStored (replicate k EvReq ++ replicate k EvStored) = Z.of_nat k.
    Proof.
      rewrite nreqs_app, nstored_app. assert (H : ∀ k, numReqs (replicate k EvReq) = Z.of_nat k ∧ numReqs (replicate k EvStored) = 0 ∧
        numStored (replicate k EvReq) = 0 ∧ numStored (replicate k EvStored) = Z.of_nat k).
      { clear. induction k as [|k (H1 & H2 & H3 & H4)]; [done|]. cbn [replicate]. 
        change (EvReq :: replicate k EvReq) with ([EvReq] ++ replicate k EvReq). change (EvStored :: replicate k EvStored) with ([EvStored] ++ replicate k EvStored).
        rewrite !nreqs_app, !nstored_app, H1, H2, H3, H4. repeat split; try done;
        change (numReqs [EvReq]) with 1; change (numStored [EvStored]) with 1; lia. }
      destruct (H k) as (-> & -> & -> & ->). lia.
    Qed.
    Lemma start_cinv : cinv s1.
    Proof.
      split.
      - cbn [sessionInit wSLog wLog]. destruct (nreqs_rep (Z.to_nat (value (sLog p) NumIndexingReqs))) as [-> _].
        pose proof (value_nonneg (sLog p) NumIndexingReqs). lia.
      - cbn [sessionInit wProcs]. eapply Forall_impl; [by apply (workers_ok Hn nseg)|]. by intros w [_ ?].
    Qed.
    Lemma start_all_stored : all_stored (wSLog s1).
    Proof. unfold all_stored. cbn [sessionInit wSLog]. by destruct (nreqs_rep (Z.to_nat (value (sLog p) NumIndexingReqs))) as [-> ->]. Qed.
    Lemma start_sbal : sbal_inv s1.
    Proof.
      unfold sbal_inv. pose proof start_all_stored as E. unfold all_stored in E. rewrite E. cbn [sessionInit wClients wWork].
      rewrite !ProofPipe.zsum_zero; [lia|..].
      - intros c (cs & -> & _)%elem_of_list_fmap. done.
      - intros w [-> _]%elem_of_replicate. done.
    Qed.
    Lemma start_lst : lst murmur n only reqsFirst cap nseg s1.
    Proof.
      exists start, PR, ((pipeProg <$> progs) ++ recs). split; [apply start_reach|]. split; [apply Hrec|]. split; [apply start_pinv|].
      split; [apply start_cinv|apply start_sbal].
    Qed.
    Lemma start_winv : (1 <= nseg)%nat → winv n reqsFirst nS (length progs) (nseg + 4 * Z.to_nat n) s1.
    Proof.
      intros Hs.
      assert (HL : linv n reqsFirst (length recs + nseg + 4 * Z.to_nat n) p).
      { pose proof Hp as Hp'. unfold pipe_reach in Hp'. revert Hp'. generalize p. clear -Hs Hn. apply (rtc_ind_r (R := pipeSt)); [by apply linv_init|].
        intros y z _ [k Hk] IH. by eapply linv_step. }
      destruct HL as [L P Ne Wk]. pose proof (workers_ok Hn _ _ _ Hp) as HW.
      split; cbn [sessionInit wClients wProcs wNet wWork].
      - by rewrite fmap_length.
      - rewrite drop_length. lia.
      - by rewrite replicate_length.
      - apply Forall_fmap, Forall_true. intros cs. exists WFlush. apply suffix_nil.
      - apply Forall_and. split; [by apply Forall_drop|]. eapply Forall_impl; [exact HW|]. by intros w [_ (? & _)].
      - done.
      - intros ch Hch. destruct (Wk ch Hch) as (k & q & Hk & Hq). exists (k - length recs)%nat, q. split; [|done].
        rewrite lookup_drop. destruct (decide (k < length recs)%nat) as [Hlt|]; [|by replace (length recs + (k - length recs))%nat with k by lia].
        exfalso. pose proof (chans _ _ _ Hp) as Hc. assert (Hck : (pChan <$> sProcs p) !! k = Some (Some ch)) by (by rewrite list_lookup_fmap, Hk; cbn; rewrite Hq).
        rewrite Hc in Hck. cbn [pipeInit sProcs] in Hck. rewrite list_lookup_fmap, lookup_app_l in Hck by (by rewrite fmap_length).
        rewrite list_lookup_fmap in Hck. by destruct (recs !! k).
    Qed.
  End Start.

  (** * A session seen from the pipeline and from the store *)
  Theorem session_pipe nseg recs progs s : sreachp nseg recs progs s →
    ∃ q, preach nseg ((pipeProg <$> progs) ++ recs) q ∧ sNet q = wNet s ∧ sLog q = wLog s ∧ (1 <= n < 2^32 →
      (∀ k, wreturned k s → returned k q) ∧ (all_returned s → pipe_rest s → quiescent q)).
  Proof.
    intros (p & Hp & Hrec & Hr).
    destruct (pinv_view murmur n only reqsFirst cap s (fr (pipeProg <$> progs) p) (take (length recs) (sProcs p))) as (q & P & Hq & E1 & E2 & E3 & El & H1 & H2).
    { eapply pinv_rtc; [exact Hr|]. intros b. by apply start_pinv. }
    { apply Hrec. }
    exists q. split; [|do 2 (split; [done|])].
    { unfold pipe_reach in *. etrans; [|exact Hq]. by apply fr_reach. }
    intros Hn. split; [done|]. intros Ha Hpr. apply H2; [done|done|].
    assert (HC : cinv s). { eapply cinv_rtc; [exact Hr|]. by eapply start_cinv. }
    destruct HC as [_ HW]. eapply Forall_impl; [exact HW|]. by intros w (? & ? & ?).
  Qed.
  Definition phantom (e : sevent) : Prop := e = EvReq ∨ e = EvStored.
  Theorem session_store nseg recs progs s : 1 <= n < 2^32 → sreachp nseg recs progs s →
    ∃ q ph, store_reach accepts encode murmur nS (storeProg <$> progs) q ∧ wSLog s = ph ++ ssLog q ∧ Forall phantom ph ∧ all_stored ph ∧
      ssWork q = wWork s ∧ ssDels q = wDels s ∧
      (∀ k, wreturned k s → ∃ t, ssClients q !! k = Some t ∧ scCalls t = [] ∧ scActs t = []) ∧ (all_returned s → clients_done q).
  Proof.
    intros Hn (p & Hp & Hrec & Hr).
    set (ph := wSLog (sessionInit nS (length recs) p progs)).
    destruct (stinv_view murmur reqsFirst accepts encode nS reqsFirst2 ph progs s) as (q & H1 & H2 & H3 & H4 & H5 & H6).
    { eapply stinv_rtc; [|exact Hr|by eapply start_cinv|]; [apply start_all_stored|]. intros b. apply stinv_start. }
    exists q, ph. split; [done|]. split; [done|]. split; [|split; [apply start_all_stored|done]].
    unfold ph. cbn [sessionInit wSLog]. apply Forall_app. split; apply Forall_replicate; [by left|by right].
  Qed.
  Lemma db_phantom dbs ph log j : Forall phantom ph → dbAfter murmur nS dbs (ph ++ log) j = dbAfter murmur nS dbs log j.
  Proof.
    intros H. unfold dbAfter. rewrite foldl_app. f_equal. generalize (dbs j). induction H as [|e ph He _ IH]; intros db; [done|]. cbn [foldl].
    rewrite IH. by destruct He as [-> | ->].
  Qed.
  Theorem session_counts nseg recs progs s : 1 <= n < 2^32 → sreachp nseg recs progs s → value (wLog s) NumIndexingReqs = numReqs (wSLog s).
  Proof. intros Hn (p & Hp & Hrec & Hr). symmetry. eapply cinv_rtc; [exact Hr|]. by eapply start_cinv. Qed.

  (** * Every call returns *)
  Theorem session_rest nseg recs progs s ms : 1 <= n < 2^32 → (∀ ch, (1 <= cap ch)%nat) → 1 <= nS → (1 <= nseg)%nat → sreachp nseg recs progs s →
    wfair (length progs) (nseg + 4 * Z.to_nat n) (Z.to_nat nS) ms →
    let step := wmoveStep murmur n only reqsFirst cap accepts encode nS reqsFirst2 in
    ∃ i, at_rest (wafter step ms s i) ∧ ∀ m, step m (wafter step ms s i) = None.
  Proof.
    intros Hn Hcap HnS Hs (p & Hp & Hrec & Hr) Hf step.
    assert (HL : lst murmur n only reqsFirst cap nseg s ∧ winv n reqsFirst nS (length progs) (nseg + 4 * Z.to_nat n) s).
    { revert s Hr. apply (rtc_ind_r (R := wstep)).
      - split; [by apply start_lst|by apply start_winv].
      - intros y z _ [m Hm] [H1 H2]. split; [by eapply lst_step|by eapply winv_step]. }
    destruct HL as [HL HW]. 
    destruct (rest_gen murmur n only reqsFirst cap accepts encode nS reqsFirst2 Hn Hcap HnS _ _ nseg s ms HW HL Hf) as [i Hi].
    exists i. split; [exact Hi|]. intros m. eapply still_gen; [|exact Hi].
    destruct (lst_after murmur n only reqsFirst cap accepts encode nS reqsFirst2 nseg ms s i HL) as (? & ? & ? & _ & _ & _ & ? & _). done.
  Qed.
End Session.
