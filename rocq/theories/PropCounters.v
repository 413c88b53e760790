(** C91: the public counters. *)
From Verif Require Import ModelCounters SpecPipe SpecLive SpecCounters ProofCounters ExampleTools PropPipe PropLive.

(** At no time do the counters exceed what the clients are going to ask for. *)
Theorem C91_counters_never_exceed_the_calls murmur n only reqsFirst cap nseg progs s :
  1 <= n < 2^32 → pipe_reach murmur n only reqsFirst cap nseg progs s →
  NumIndexed s <= zlen (index_calls (mjoin progs)) ∧ NumRemoved s <= n * zlen (removal_calls (mjoin progs)) ∧
  NumTokenAdded s <= zlen (keywords_of (index_calls (mjoin progs))).
Proof. intros Hn. exact (counters_bound murmur n only reqsFirst cap Hn nseg progs s). Qed.
Print Assumptions C91_counters_never_exceed_the_calls.

(** At rest they count calls: NumIndexed the calls of Index, updates included; NumRemoved the
    calls of RemoveDoc times the number of shards, whether or not there was such a document;
    NumTokenAdded the keywords of all documents given, updates included. *)
Theorem C91_counters_count_calls murmur n only reqsFirst cap nseg progs s :
  1 <= n < 2^32 → pipe_reach murmur n only reqsFirst cap nseg progs s → quiescent s →
  NumIndexed s = zlen (index_calls (mjoin progs)) ∧ NumRemoved s = n * zlen (removal_calls (mjoin progs)) ∧
  NumTokenAdded s = zlen (keywords_of (index_calls (mjoin progs))).
Proof. intros Hn. exact (counters_rest murmur n only reqsFirst cap Hn nseg progs s). Qed.
Print Assumptions C91_counters_count_calls.

(** Two shards: one document indexed twice, and one removal of an id that never existed. *)
Definition cntProgs : list (list ecall) := [[idxA false; EFlush; idxA true]; [ERemove "zz" false; EFlush]].
Example C91_case rf : let s := after (pstep hash1 2 false rf cap1) (robin 11) (pipeInit 2 1 cntProgs) 600 in
  pipe_reach hash1 2 false rf cap1 1 cntProgs s ∧ quiescent s ∧
  NumIndexed s = 2 ∧ NumRemoved s = 2 ∧ NumTokenAdded s = 2 * zlen (Keywords docA) ∧ 0 < zlen (Keywords docA).
Proof.
  cbv zeta. split; [apply ProofLive.reach_after; apply rtc_refl|].
  split; [apply restb_ok; destruct rf; by vm_compute|].
  repeat split; destruct rf; by vm_compute.
Qed.
