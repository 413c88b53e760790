(** C73, C74: the write pipeline comes to rest, and then has done each request once. *)
From Verif Require Import ModelPipe SpecIndexer SpecPipe SpecLive ProofLive ExampleTools PropPipe.

(** * C73 *)
(** Whatever the clients call, concurrent Flush calls included, and whatever has
    happened so far: if every goroutine keeps getting turns, all calls return and all
    requests are processed.  Then nothing moves any more. *)
Theorem C73_everything_returns murmur n only reqsFirst cap nseg progs s ks :
  1 <= n < 2^32 → (∀ ch, (1 <= cap ch)%nat) → (1 <= nseg)%nat →
  pipe_reach murmur n only reqsFirst cap nseg progs s →
  fair (length progs + nseg + 4 * Z.to_nat n) ks →
  ∃ i, quiescent (after (pstep murmur n only reqsFirst cap) ks s i) ∧
    ∀ k, pstep murmur n only reqsFirst cap k (after (pstep murmur n only reqsFirst cap) ks s i) = None.
Proof.
  intros Hn Hcap Hs Hr Hf. destruct (rest_lem murmur n only reqsFirst cap Hn Hcap nseg progs s ks Hs Hr Hf) as [i Hi].
  exists i. split; [exact Hi|]. intros k. by apply rest_still.
Qed.
Print Assumptions C73_everything_returns.

(** * C74 *)
(** At rest, every shard has got exactly the documents routed to it and every removal,
    each as often as the clients asked for it. *)
Theorem C74_each_request_once murmur n only reqsFirst cap nseg progs s i :
  1 <= n < 2^32 → pipe_reach murmur n only reqsFirst cap nseg progs s → quiescent s → 0 <= i < n →
  omap doc_added (ixCalls i (sLog s)) ≡ₚ omap (asked_add murmur n i) (mjoin progs) ∧
  omap doc_removed (ixCalls i (sLog s)) ≡ₚ omap asked_removal (mjoin progs) ∧
  rkCalls i (sLog s) ≡ₚ omap (asked_rank murmur n only i) (mjoin progs).
Proof. intros Hn. exact (once_lem murmur n only reqsFirst cap Hn nseg progs s i). Qed.
Print Assumptions C74_each_request_once.

(** Two clients, two shards, one segmenter, goroutines taking turns: at rest after 200
    turns; 11 goroutines. *)
Definition robin (N i : nat) : nat := (i mod N)%nat.
Definition progsL : list (list ecall) :=
  [[idxA false; EFlush; ERemove "b" true]; [idxB true; ERemove "0" true; EFlush]].
Definition restb (s : pstate) : bool :=
  match sNet s with [] => true | _ => false end &&
  forallb (λ p, match pActs p, pCalls p with [], [] => true | _, _ => false end) (sProcs s).
Lemma restb_ok s : restb s = true → quiescent s.
Proof.
  unfold restb. intros [H1 H2]%andb_true_iff. split; [by destruct (sNet s)|]. apply Forall_forall. intros p Hp.
  rewrite forallb_forall in H2. specialize (H2 p). rewrite elem_of_list_In in Hp. specialize (H2 Hp).
  by destruct (pActs p), (pCalls p).
Qed.
Lemma robin_fair N : (0 < N)%nat → fair N (robin N).
Proof.
  intros HN k Hk i. exists (k + i * N)%nat. split; [nia|]. unfold robin. rewrite Nat.mod_add by lia. by apply Nat.mod_small.
Qed.
Example C73_case : fair (length progsL + 1 + 4 * Z.to_nat 2) (robin 11) ∧
  ¬ quiescent (after (pstep hash1 2 false true cap1) (robin 11) (pipeInit 2 1 progsL) 60) ∧
  quiescent (after (pstep hash1 2 false true cap1) (robin 11) (pipeInit 2 1 progsL) 400).
Proof.
  split; [by apply (robin_fair 11); lia|]. split; [|by apply restb_ok; vm_compute].
  intros [_ H]. revert H. vm_compute. intros H. apply Forall_cons in H as [[H _] _]. done.
Qed.
Example C74_case : let s := after (pstep hash1 2 false true cap1) (robin 11) (pipeInit 2 1 progsL) 400 in
  pipe_reach hash1 2 false true cap1 1 progsL s ∧ quiescent s ∧
  omap doc_added (ixCalls 1 (sLog s)) = [(docA, false); (docB, true)] ∧
  omap doc_removed (ixCalls 0 (sLog s)) = [("0", true); ("b", true)].
Proof.
  cbn zeta. split; [|split; [by apply restb_ok; vm_compute|by vm_compute]].
  apply reach_after. apply rtc_refl.
Qed.
