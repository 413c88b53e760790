(** Searches after Close and a restart. *)
From Verif Require Import ModelPipe ModelEngine ModelStore ModelClose SpecIndexer SpecSearch SpecRank SpecRoute SpecPipe SpecSegment SpecEngine
  SpecFlight SpecStore SpecEnd SpecLife SpecClose ProofSortBy ProofStore ProofStoreRun ProofEnd ProofLife ProofClose.

Section CloseLife.
  Variable murmur : string → Z.
  Variable n : Z.
  Variable only reqsFirst : bool.
  Variable cap : chan → nat.
  Hypothesis Hn : 1 <= n < 2^32.
  Variable iter : kv → list (string * string).
  Hypothesis Hiter : valid_iter iter.
  Variable decode : string → DocData * bool.
  Variable X : Ext.
  Variable stop : gset string.
  Variable o : SegOpts.
  Hypothesis HX : valid_range X.

  Lemma recover_ext nS dbs dbs' : (∀ j, 0 <= j < nS → dbs j = dbs' j) →
    recoverProgs iter decode X stop o nS dbs = recoverProgs iter decode X stop o nS dbs'.
  Proof.
    intros H. unfold recoverProgs. assert (HF : ∀ l, (∀ j, j ∈ l → dbs j = dbs' j) →
      mapM (λ j, mapM (λ p, indexCall X stop o p.1 p.2 false) (storeInit iter decode (dbs j))) l =
      mapM (λ j, mapM (λ p, indexCall X stop o p.1 p.2 false) (storeInit iter decode (dbs' j))) l).
    { induction l as [|j l IH]; intros Hl; [done|]. cbn [mapM]. rewrite Hl by by left. rewrite IH; [done|]. intros j' Hj'. apply Hl. by right. }
    apply HF. intros j Hj%elem_of_seqZ. apply H. lia.
  Qed.
  Lemma last_data_flush cs id d : last_data (cs ++ [SFlush]) id d ↔ last_data cs id d.
  Proof.
    split.
    - intros (cs1 & cs2 & E & Hno). destruct cs2 as [|c cs2 _] using rev_ind.
      + exfalso. apply app_inj_tail in E as [_ ?]. done.
      + rewrite app_comm_cons, app_assoc in E. apply app_inj_tail in E as [-> _]. exists cs1, cs2. split; [done|].
        intros d' Hd. apply (Hno d'), elem_of_app. by left.
    - intros (cs1 & cs2 & -> & Hno). exists cs1, (cs2 ++ [SFlush]). split; [by rewrite <-app_assoc|]. intros d'.
      rewrite elem_of_app, elem_of_list_singleton. intros [Hd|?]; [by eapply Hno|done].
  Qed.
  Lemma survives_flush nS dbs cs id d : survives murmur nS decode dbs (cs ++ [SFlush]) id d ↔ survives murmur nS decode dbs cs id d.
  Proof.
    unfold survives. rewrite last_data_flush. assert (H : ∀ d', SIndex id d' ∈ cs ++ [SFlush] ↔ SIndex id d' ∈ cs).
    { intros d'. rewrite elem_of_app, elem_of_list_singleton. naive_solver. }
    split; (intros [?|[H1 ?]]; [by left|right; split; [|done]; intros d' Hd; by eapply H1, H]).
  Qed.

  Theorem close_life accepts encode sortDocs sortBy io s0 nseg nS dbs cs rest w progs s shards log2 req order :
    valid_sort sortDocs → valid_sortBy sortBy → Init io = Some s0 →
    1 <= nS < 2^32 → round_trip encode decode → placed murmur nS dbs → no_zero nS dbs →
    (∀ id, SRemove id ∉ cs) → (∀ id d, SIndex id d ∈ cs → ∃ v, writable accepts encode id d v) →
    close_reach accepts encode murmur nS [(CCall <$> (cs : list scall)) ++ CloseCalls nS ++ rest] w → all_down nS w →
    recoverProgs iter decode X stop o nS (fileAt murmur nS dbs w) = Some progs →
    pipe_reach murmur n only reqsFirst cap nseg (progs ++ [[EFlush]]) s → quiescent s →
    engine_shards sortDocs s0 only n s shards → Forall nothing_waits shards →
    plain_request io req → scores_numbers log2 req shards → all_arrive (length shards) order →
    ∃ full out, Search log2 sortBy req shards order = Some (mkResp (rqTokens req) false (zlen full) (Some out)) ∧
      answers_docs only X stop o (survives murmur nS decode dbs cs) req full out.
  Proof.
    intros Hv Hvb HI HnS Hrt Hpl Hz Hnr Hwr Hr Hdn Hp Hpr Hpq Hsh Hw Hreq Hnan Ha.
    destruct (closed_quiet accepts encode murmur nS HnS dbs cs rest w Hnr Hr Hdn) as (ss & Hss & Hsq & Hf).
    rewrite (recover_ext nS _ _ Hf) in Hp.
    destruct (life_whole murmur n only reqsFirst cap Hn iter Hiter decode X stop o HX accepts encode sortDocs sortBy io s0 nseg nS dbs
      (cs ++ [SFlush]) ss progs s shards log2 req order) as (full & out & HS & F1 & F2 & F3 & F4 & F5 & F6); try done.
    { intros id. rewrite elem_of_app, elem_of_list_singleton. intros [?|?]; [by eapply Hnr|done]. }
    { intros id d. rewrite elem_of_app, elem_of_list_singleton. intros [?|?]; [by apply Hwr|done]. }
    exists full, out. split; [done|]. split; [done|]. split; [done|]. split; [done|]. split; [done|]. split.
    - intros h Hh. destruct (F5 h Hh) as (id & d & doc & Hst & Hrest). exists id, d, doc. split; [by apply survives_flush|done].
    - intros id d Hst. apply F6. by apply survives_flush.
  Qed.
End CloseLife.
