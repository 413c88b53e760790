(** Theorems about fair executions of the engine with UseStore. *)
From Verif Require Import ModelWhole SpecPipe SpecLive SpecStore SpecWhole ProofWholeLive ExampleTools PropPipe PropStore PropEnd PropLife PropWhole.

(** * C83: all work is done in the end *)
(** Whatever state the engine is in and in whatever order its goroutines get their turns,
    after finitely many turns every client has returned from all its calls, and nothing is
    left in the channels, with the workers, or to be removed; then nobody can move. *)
Theorem C83_everything_returns murmur n only reqsFirst cap accepts encode nS reqsFirst2 nseg progs s ms :
  1 <= n < 2^32 → (∀ ch, (1 <= cap ch)%nat) → 1 <= nS → (1 <= nseg)%nat →
  whole_reach murmur n only reqsFirst cap accepts encode nS reqsFirst2 nseg progs s →
  wfair (length progs) (nseg + 4 * Z.to_nat n) (Z.to_nat nS) ms →
  let step := wmoveStep murmur n only reqsFirst cap accepts encode nS reqsFirst2 in
  ∃ i, at_rest (wafter step ms s i) ∧ ∀ m, step m (wafter step ms s i) = None.
Proof.
  intros Hn Hcap HnS Hs Hr Hf. destruct (whole_rest murmur n only reqsFirst cap accepts encode nS reqsFirst2 Hn Hcap HnS nseg progs s ms Hs Hr Hf) as [i Hi].
  exists i. split; [exact Hi|]. intros m. eapply whole_still; [by apply wreach_after|exact Hi].
Qed.
Print Assumptions C83_everything_returns.

(** Then each request has been carried out once: in the indexer and ranker of its shard, ... *)
Theorem C83_each_document_is_indexed_once murmur n only reqsFirst cap accepts encode nS reqsFirst2 nseg progs s i :
  1 <= n < 2^32 →
  whole_reach murmur n only reqsFirst cap accepts encode nS reqsFirst2 nseg progs s → at_rest s → 0 <= i < n →
  omap doc_added (ixCalls i (wLog s)) ≡ₚ omap (asked_add murmur n i) (pipeCall <$> mjoin progs) ∧
  omap doc_removed (ixCalls i (wLog s)) ≡ₚ omap asked_removal (pipeCall <$> mjoin progs) ∧
  rkCalls i (wLog s) ≡ₚ omap (asked_rank murmur n only i) (pipeCall <$> mjoin progs).
Proof. intros Hn. exact (whole_once murmur n only reqsFirst cap accepts encode nS reqsFirst2 Hn nseg progs s i). Qed.
Print Assumptions C83_each_document_is_indexed_once.
(** ... and in the database files. *)
Theorem C83_each_document_is_stored_once murmur n only reqsFirst cap accepts encode nS reqsFirst2 nseg progs s :
  whole_reach murmur n only reqsFirst cap accepts encode nS reqsFirst2 nseg progs s → at_rest s →
  omap store_op (wSLog s) ≡ₚ omap (asked_op accepts encode) (mjoin progs).
Proof. exact (whole_ops murmur n only reqsFirst cap accepts encode nS reqsFirst2 nseg progs s). Qed.
Print Assumptions C83_each_document_is_stored_once.

(** Three clients, two shards of each kind, goroutines taking turns in a circle. *)
Definition wCircle : list wmove := (WMClient <$> seq 0 3) ++ (WMProc <$> seq 0 9) ++ (WMWorker <$> seq 0 2) ++ [WMDel 0].
Definition wTurns (l : list wmove) (i : nat) : wmove := nth (i mod length l) l (WMDel 0).
Definition wLiveProgs : list (list wcall) :=
  [[wix "a" "Cat" false; WFlush; WRemove "bb" true]; [wix "bb" "cat dog" true; WFlush]; [WRemove "0" true; wix "ccc" "Dog" false]].
Lemma wTurns_fair l nc np nw : l ≠ [] → (∀ m, (∃ k, m = WMClient k ∧ (k < nc)%nat) ∨ (∃ k, m = WMProc k ∧ (k < np)%nat) ∨
  (∃ j, m = WMWorker j ∧ (j < nw)%nat) ∨ m = WMDel 0 → m ∈ l) → wfair nc np nw (wTurns l).
Proof.
  intros Hl H m Hm i. destruct (elem_of_list_lookup_1 _ _ (H m Hm)) as [k Hk]. pose proof (lookup_lt_Some _ _ _ Hk) as Hlt.
  exists (k + i * length l)%nat. split; [nia|]. unfold wTurns. rewrite Nat.mod_add by lia. rewrite Nat.mod_small by done.
  by apply nth_lookup_Some.
Qed.
Definition wLive rf rf2 i : wstate :=
  wafter (wmoveStep hashLen 2 false rf cap1 accT encB 2 rf2) (wTurns wCircle) (wholeInit 2 2 1 wLiveProgs) i.
Definition all_returnedb (s : wstate) : bool :=
  forallb (λ c, match wActs c, wCalls c with [], [] => true | _, _ => false end) (wClients s).
Lemma all_returnedb_ok s : all_returnedb s = true → all_returned s.
Proof.
  unfold all_returnedb, all_returned. intros H. apply Forall_forall. intros c Hc. rewrite forallb_forall in H. apply elem_of_list_In in Hc.
  specialize (H c Hc). by destruct (wActs c), (wCalls c).
Qed.
Example C83_case rf rf2 : wfair (length wLiveProgs) (1 + 4 * Z.to_nat 2) (Z.to_nat 2) (wTurns wCircle) ∧
  whole_reach hashLen 2 false rf cap1 accT encB 2 rf2 1 wLiveProgs (wLive rf rf2 60) ∧
  all_returnedb (wLive rf rf2 60) = false ∧ at_rest (wLive rf rf2 900) ∧
  omap doc_added (ixCalls 1 (wLog (wLive rf rf2 900))) = [(wdoc "bb" (txt "cat dog"), true)] ∧
  omap store_op (wSLog (wLive rf rf2 900)) = [PutOp "a" (Some "Cat"); PutOp "bb" (Some "cat dog"); PutOp "ccc" (Some "Dog"); DelOp "bb"].
Proof.
  split.
  { apply wTurns_fair; [done|]. intros m [(k & -> & Hk)|[(k & -> & Hk)|[(j & -> & Hj)| ->]]]; unfold wCircle; rewrite !elem_of_app.
    - left. apply elem_of_list_fmap. exists k. split; [done|]. apply elem_of_seq. cbn in Hk. lia.
    - right. left. apply elem_of_list_fmap. exists k. split; [done|]. apply elem_of_seq. cbn in Hk. lia.
    - right. right. left. apply elem_of_list_fmap. exists j. split; [done|]. apply elem_of_seq. cbn in Hj. lia.
    - right. right. right. by left. }
  split. { unfold wLive. apply wreach_after. apply rtc_refl. }
  split; [destruct rf, rf2; by vm_compute|].
  split. { split; [apply all_returnedb_ok|split; [apply pipe_restb_ok|apply store_restb_ok]]; destruct rf, rf2; by vm_compute. }
  split.
  - destruct rf, rf2; vm_compute; done.
  - destruct rf, rf2; vm_compute; done.
Qed.
