(** Proofs about documents that are indexed under the reserved id "0". *)
From Verif Require Import ModelPipe ModelEngine ModelFlight SpecIndexer SpecSearch SpecRank SpecRoute SpecPipe SpecEngine SpecFlight SpecEnd SpecFits
  ProofTopK ProofRoute ProofPipe ProofBlocks ProofFlush ProofFlushThms ProofRanker ProofEnd.

(** Calls on "0" do to the workers what Flush does to them, or nothing. *)
Definition tidy (c : ecall) : list ecall :=
  if not_zero c then [c] else match c with EIndex _ _ _ _ true => [EFlush] | _ => [] end.
Definition tidied (cs : list ecall) : list ecall := mjoin (tidy <$> cs).

Lemma tidy_cases c : (not_zero c = true ∧ tidy c = [c]) ∨ ∃ d f ct a fo, c = EIndex d f ct a fo ∧ DocId d = "0" ∧
  not_zero c = false ∧ tidy c = if fo then [EFlush] else [].
Proof.
  unfold tidy. destruct (not_zero c) eqn:E; [by left|]. right. pose proof (not_zero_inv c E) as (d & f & ct & a & fo & -> & Hd).
  exists d, f, ct, a, fo. split; [done|]. split; [done|]. split; [done|]. by destruct fo.
Qed.
Lemma tidied_cons c cs : tidied (c :: cs) = tidy c ++ tidied cs.
Proof. done. Qed.
Lemma tidied_index d f ct a fo cs : EIndex d f ct a fo ∈ tidied cs ↔ EIndex d f ct a fo ∈ ordinary cs.
Proof.
  induction cs as [|c cs IH]; [done|]. rewrite tidied_cons, elem_of_app, IH, ordinary_cons.
  destruct (tidy_cases c) as [[-> ->]|(d' & f' & ct' & a' & fo' & -> & Hd & -> & ->)].
  - rewrite elem_of_list_singleton, elem_of_cons. done.
  - destruct fo'; rewrite ?elem_of_list_singleton; split; try tauto; intros [H|H]; try done. by apply elem_of_nil in H.
Qed.
Lemma tidied_ids cs : omap call_id (tidied cs) = omap call_id (ordinary cs).
Proof.
  induction cs as [|c cs IH]; [done|]. rewrite tidied_cons, omap_app, IH, ordinary_cons.
  destruct (tidy_cases c) as [[-> ->]|(d' & f' & ct' & a' & fo' & -> & Hd & -> & ->)]; [|by destruct fo'].
  cbn. by destruct (call_id c).
Qed.
Lemma tidied_once cs : once_each (ordinary cs) → once_each (tidied cs).
Proof.
  intros [H1 H2]. split; [|by rewrite tidied_ids]. clear H2. induction cs as [|c cs IH]; [constructor|].
  rewrite tidied_cons, Forall_app. rewrite ordinary_cons in H1.
  destruct (tidy_cases c) as [[E ->]|(d' & f' & ct' & a' & fo' & -> & Hd & E & ->)]; rewrite E in H1.
  - apply Forall_cons in H1 as [? ?]. split; [by apply Forall_singleton|auto].
  - split; [|auto]. destruct fo'; [by apply Forall_singleton|constructor].
Qed.
Lemma answers_tidied only cs req full out : answers_fitting only (tidied cs) req full out → answers_fitting only (ordinary cs) req full out.
Proof.
  intros (A1 & A2 & A3 & A4 & A5 & A6). do 4 (split; [done|]). split.
  - intros h Hh. destruct (A5 h Hh) as (d & f & ct & a & fo & Hc & Hx). exists d, f, ct, a, fo. split; [by apply tidied_index|done].
  - intros d f ct a fo Hc. apply (A6 d f ct a fo). by apply tidied_index.
Qed.

Section Reserved.
  Context (murmur : string → Z) (n : Z) (only reqsFirst : bool) (cap : chan → nat) (Hn : 1 <= n < 2 ^ 32).
  Notation reachp := (pipe_reach murmur n only reqsFirst cap).

  Lemma tidied_ix i cs : ixStream murmur n i (tidied cs) = ixStream murmur n i cs.
  Proof.
    induction cs as [|c cs IH]; [done|]. rewrite tidied_cons, ixStream_app, IH.
    change (ixStream murmur n i (c :: cs)) with (ixMsgs murmur n i c ++ ixStream murmur n i cs). f_equal.
    destruct (tidy_cases c) as [[_ ->]|(d' & f' & ct' & a' & fo' & -> & Hd & _ & ->)]; [by rewrite ixStream_one|].
    cbn [ixMsgs]. rewrite Hd. by destruct fo'.
  Qed.
  Lemma tidied_rk i cs : rkStream murmur n only i (tidied cs) = rkStream murmur n only i cs.
  Proof.
    induction cs as [|c cs IH]; [done|]. rewrite tidied_cons, rkStream_app, IH.
    change (rkStream murmur n only i (c :: cs)) with (rkMsgs murmur n only i c ++ rkStream murmur n only i cs). f_equal.
    destruct (tidy_cases c) as [[_ ->]|(d' & f' & ct' & a' & fo' & -> & Hd & _ & ->)]; [by rewrite rkStream_one|].
    cbn [rkMsgs]. rewrite Hd. by destruct fo'.
  Qed.
  Lemma tidied_handled cs s : handled murmur n only cs s → handled murmur n only (tidied cs) s.
  Proof. intros H i Hi. rewrite tidied_ix, tidied_rk. by apply H. Qed.

  Theorem reserved_search sortDocs sortBy o s0 nseg progs s shards log2 req order :
    valid_sort sortDocs → valid_sortBy sortBy → Init o = Some s0 →
    reachp nseg progs s → quiescent s → once_each (ordinary (mjoin progs)) →
    engine_shards sortDocs s0 only n s shards → Forall nothing_waits shards →
    open_request o req → scores_numbers log2 req shards → all_arrive (length shards) order →
    ∃ full out, Search log2 sortBy req shards order = Some (mkResp (rqTokens req) false (zlen full) (Some out)) ∧
      answers_fitting only (ordinary (mjoin progs)) req full out.
  Proof.
    intros Hv Hvb HI Hr Hq Ho Hsh Hw Hrq Hnan Ha.
    destruct (calls_search murmur n only Hn sortDocs sortBy o s0 (tidied (mjoin progs)) s shards log2 req order)
      as (full & out & E & H); [done..| | |done|done|done|done|done|].
    - apply tidied_handled. by eapply quiescent_handled.
    - by apply tidied_once.
    - exists full, out. split; [done|]. by apply answers_tidied.
  Qed.
  Theorem reserved_flight sortDocs sortBy o s0 nseg progs s shards log2 nn ccap clients tl tr ls fs a req t0 :
    valid_sort sortDocs → valid_sortBy sortBy → Init o = Some s0 →
    reachp nseg progs s → quiescent s → once_each (ordinary (mjoin progs)) →
    engine_shards sortDocs s0 only n s shards → Forall nothing_waits shards →
    frun log2 sortBy nn ccap ls (fInit nn clients tl tr shards) = Some fs → Forall read_only ls → length shards = nn →
    a ∈ fAnswers fs → fReqs fs !! faSearch a = Some (req, t0) →
    open_request o req → scores_numbers log2 req shards →
    ∃ full out, faResp a = mkResp (rqTokens req) false (zlen full) (Some out) ∧
      answers_fitting only (ordinary (mjoin progs)) req full out.
  Proof.
    intros Hv Hvb HI Hr Hq Ho Hsh Hw Hf Hro Hl Ha Hrq Hreq Hnan.
    destruct (calls_flight murmur n only Hn sortDocs sortBy o s0 (tidied (mjoin progs)) s shards log2 nn ccap clients tl tr ls fs a req t0)
      as (full & out & E & H); [done..| | |done|done|done|done|done|done|done|done|done|].
    - apply tidied_handled. by eapply quiescent_handled.
    - by apply tidied_once.
    - exists full, out. split; [done|]. by apply answers_tidied.
  Qed.

  (** After Flush nothing waits, and the indexers show the ordinary documents. *)
  Theorem reserved_flushed sortDocs o s0 nseg phases s i : valid_sort sortDocs → Init o = Some s0 →
    Forall (λ ph, good_phase (ordinary ph)) phases → reachp nseg [program phases] s → returned 0 s → 0 <= i < n →
    ∃ ix M, run sortDocs (ixCalls i (sLog s)) s0 = Some ix ∧ shows ix M ∧ clean ix M ∧
      addCache ix = [] ∧ removeCache ix = [] ∧
      ∀ id, M !! id = version murmur n i (ordinary (program phases)) id.
  Proof.
    intros Hv HI HG Hr Hret Hi.
    assert (HL : Forall loose_phase phases) by (eapply Forall_impl; [exact HG|]; intros ph; apply loose_iff).
    destruct (loose_gen murmur n only reqsFirst Hn sortDocs o s0 phases s i) as (ix & H1 & H2 & H3 & H4 & H5); [done..| |done|done|].
    { by eapply reach_stage. }
    eexists ix, _. do 5 (split; [done|]). intros id. rewrite mapOf_ordinary. apply mapOf_version'; [done|].
    clear. induction (program phases) as [|c cs IH]; [constructor|]. rewrite ordinary_cons.
    destruct (not_zero c) eqn:E; [|done]. constructor; [|done]. destruct c as [d f ct a fo|id' fo|]; [|done..].
    rewrite not_zero_id in E. change (DocId d ≠ "0"). intros Hd. rewrite Hd in E. done.
  Qed.
  Lemma loose_returned nseg phases s : reachp nseg [program phases] s → Forall loose_phase phases → quiescent s → returned 0 s.
  Proof.
    intros Hr HG Hq. destruct (reach_stage _ _ _ _ _ Hn _ _ _ HG Hr) as (c & ws & (Hps & _) & _).
    destruct Hq as [_ Hq]. rewrite Hps in Hq. apply Forall_cons in Hq as [[H1 H2] _]. exists c. by rewrite Hps.
  Qed.
  Theorem reserved_idle sortDocs o s0 nseg phases s : valid_sort sortDocs → Init o = Some s0 →
    reachp nseg [program phases] s → quiescent s → Forall (λ ph, good_phase (ordinary ph)) phases →
    ∃ shards, engine_shards sortDocs s0 only n s shards ∧ Forall nothing_waits shards.
  Proof.
    intros Hv HI Hr Hq Hg. apply shards_exist; [done|]. intros i Hi.
    destruct (C27_lem only (rkCalls i (sLog s))) as (rk & Hk & _); [by eapply drained_engine|].
    assert (HL : Forall loose_phase phases) by (eapply Forall_impl; [exact Hg|]; intros ph; apply loose_iff).
    destruct (reserved_flushed sortDocs o s0 nseg phases s i) as (ix & M & Hx & _ & _ & H1 & H2 & _); [done..|by eapply loose_returned|done|].
    by exists ix, rk.
  Qed.
End Reserved.
