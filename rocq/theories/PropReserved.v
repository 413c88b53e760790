(** Theorems about documents that are indexed under the reserved id "0". *)
From Verif Require Import ModelPipe ModelEngine ModelFlight SpecIndexer SpecSearch SpecRank SpecRoute SpecPipe SpecEngine SpecFlight SpecEnd SpecFits
  ProofReserved ProofIxThms ProofSortBy ExampleTools PropPipe PropEngine PropEnd PropLife PropUpdate PropWhole PropRevise.

(** * C99: calls that index documents under "0" change no answer *)
Theorem C99_search_ignores_reserved murmur n only reqsFirst cap sortDocs sortBy o s0 nseg progs s shards log2 req order :
  1 <= n < 2^32 → valid_sort sortDocs → valid_sortBy sortBy → Init o = Some s0 →
  pipe_reach murmur n only reqsFirst cap nseg progs s → quiescent s → once_each (ordinary (mjoin progs)) →
  engine_shards sortDocs s0 only n s shards → Forall nothing_waits shards →
  open_request o req → scores_numbers log2 req shards → all_arrive (length shards) order →
  ∃ full out, Search log2 sortBy req shards order = Some (mkResp (rqTokens req) false (zlen full) (Some out)) ∧
    answers_fitting only (ordinary (mjoin progs)) req full out.
Proof. intros Hn. exact (reserved_search murmur n only reqsFirst cap Hn sortDocs sortBy o s0 nseg progs s shards log2 req order). Qed.
Print Assumptions C99_search_ignores_reserved.
Theorem C99_searches_ignore_reserved murmur n only reqsFirst cap sortDocs sortBy o s0 nseg progs s shards log2 nn ccap
    clients tl tr ls fs a req t0 :
  1 <= n < 2^32 → valid_sort sortDocs → valid_sortBy sortBy → Init o = Some s0 →
  pipe_reach murmur n only reqsFirst cap nseg progs s → quiescent s → once_each (ordinary (mjoin progs)) →
  engine_shards sortDocs s0 only n s shards → Forall nothing_waits shards →
  frun log2 sortBy nn ccap ls (fInit nn clients tl tr shards) = Some fs → Forall read_only ls → length shards = nn →
  a ∈ fAnswers fs → fReqs fs !! faSearch a = Some (req, t0) →
  open_request o req → scores_numbers log2 req shards →
  ∃ full out, faResp a = mkResp (rqTokens req) false (zlen full) (Some out) ∧
    answers_fitting only (ordinary (mjoin progs)) req full out.
Proof.
  intros Hn. exact (reserved_flight murmur n only reqsFirst cap Hn sortDocs sortBy o s0 nseg progs s shards log2 nn ccap
    clients tl tr ls fs a req t0).
Qed.
Print Assumptions C99_searches_ignore_reserved.
(** Flush does its work beside such calls as well: *)
Theorem C99_flush_with_reserved murmur n only reqsFirst cap sortDocs o s0 nseg phases s i :
  1 <= n < 2^32 → valid_sort sortDocs → Init o = Some s0 → Forall (λ ph, good_phase (ordinary ph)) phases →
  pipe_reach murmur n only reqsFirst cap nseg [program phases] s → returned 0 s → 0 <= i < n →
  ∃ ix M, run sortDocs (ixCalls i (sLog s)) s0 = Some ix ∧ shows ix M ∧ clean ix M ∧
    addCache ix = [] ∧ removeCache ix = [] ∧
    ∀ id, M !! id = version murmur n i (ordinary (program phases)) id.
Proof. intros Hn. exact (reserved_flushed murmur n only reqsFirst cap Hn sortDocs o s0 nseg phases s i). Qed.
Print Assumptions C99_flush_with_reserved.
Theorem C99_nothing_waits_with_reserved murmur n only reqsFirst cap sortDocs o s0 nseg phases s :
  1 <= n < 2^32 → valid_sort sortDocs → Init o = Some s0 →
  pipe_reach murmur n only reqsFirst cap nseg [program phases] s → quiescent s →
  Forall (λ ph, good_phase (ordinary ph)) phases →
  ∃ shards, engine_shards sortDocs s0 only n s shards ∧ Forall nothing_waits shards.
Proof. intros Hn. exact (reserved_idle murmur n only reqsFirst cap Hn sortDocs o s0 nseg phases s). Qed.
Print Assumptions C99_nothing_waits_with_reserved.

(** "0" twice, once with the force flag, between two ordinary documents with the same word *)
Definition docZero : DocIndex := mkDoc "0" (f32_of_Z 1) [kw "x" [0]].
Definition zPhases : list (list ecall) :=
  [[idxA false; EIndex docZero (IOther 8) "zero" INil false; EIndex docC (IOther 3) "z" INil false; EIndex docZero (IOther 9) "zero" INil true]].
Definition zEnd rf : pstate := pRun hash0 1 rf [5; 4; 3; 2; 1; 0]%nat 400 (pipeInit 1 1 [program zPhases]).
Example C99_case rf : ∃ s0, Init (optsF 2) = Some s0 ∧ Forall (λ ph, good_phase (ordinary ph)) zPhases ∧
  once_each (ordinary (mjoin [program zPhases])) ∧
  pipe_reach hash0 1 false rf PropPipe.cap1 1 [program zPhases] (zEnd rf) ∧ returned 0 (zEnd rf) ∧ quiescent (zEnd rf) ∧
  engine_shards stableSort s0 false 1 (zEnd rf) (revShards (zEnd rf)) ∧ Forall nothing_waits (revShards (zEnd rf)) ∧
  revSearch (zEnd rf) "x" = Some (Some [("c", "z"); ("a", "x")], 2).
Proof.
  destruct (Init (optsF 2)) as [s0|] eqn:EI; [|done]. exists s0. split; [reflexivity|].
  split. { repeat (apply Forall_cons; split); [|apply Forall_nil; done].
    split; [|apply (bool_decide_unpack _); by vm_compute].
    repeat (apply Forall_cons; split); try (apply Forall_nil; done); (split; [apply (bool_decide_unpack _); by vm_compute|done]). }
  split. { split; [|apply (bool_decide_unpack _); by vm_compute].
    repeat (apply Forall_cons; split); try (apply Forall_nil; done); (split; [|done]); try done;
      apply (bool_decide_unpack _); by vm_compute. }
  split. { unfold pipe_reach, zEnd. apply pRun_reach. }
  split. { apply returnedb_ok. destruct rf; by vm_compute. }
  split. { apply quiescentb_ok. destruct rf; by vm_compute. }
  split. { apply revShards_ok; [done|]. destruct rf; by vm_compute. }
  split; [|destruct rf; by vm_compute].
  assert (H : forallb PropEnd.idle (revShards (zEnd rf)) = true) by (destruct rf; by vm_compute).
  revert H. generalize (revShards (zEnd rf)). clear. intros l H. apply Forall_forall. intros sh Hsh.
  rewrite forallb_forall in H. apply elem_of_list_In in Hsh. specialize (H sh Hsh).
  unfold PropEnd.idle in H. apply andb_true_iff in H as [Ha%Z.eqb_eq Hr%Z.eqb_eq]. unfold zlen in *.
  split; [by destruct (addCache (shIx sh))|by destruct (removeCache (shIx sh))].
Qed.
