(** C112: the deadline of a search. *)
From Verif Require Import SpecClock ProofClock SpecFlight ExampleTools ProofSortBy PropEngine PropFlight.

(** For timeouts up to 9223372036854 milliseconds the deadline is the one asked for ... *)
Theorem C112_deadline s T : 0 <= T <= 9223372036854 → deadlineAt s T = s + 1000000 * T.
Proof. exact (deadline_exact s T). Qed.
Print Assumptions C112_deadline.
(** ... for all larger ones it is too early, *)
Theorem C112_large_timeouts_end_early s T : 9223372036854 < T < 2^63 → deadlineAt s T < s + 1000000 * T.
Proof. exact (deadline_early s T). Qed.
Print Assumptions C112_large_timeouts_end_early.

(** An answer is marked as timed out exactly when a round has brought no reply, and it is not
    returned before the deadline. *)
Theorem C112_marked_iff_incomplete sortBy req events resp : 0 < rqTimeout req → Ranks sortBy req events = Some resp →
  rsTimeout resp = true ↔ None ∈ events.
Proof. exact (ranks_flag sortBy req events resp). Qed.
Print Assumptions C112_marked_iff_incomplete.
Theorem C112_not_before_the_deadline sortBy req start arriving events end_ resp :
  0 < rqTimeout req <= 9223372036854 → timedRounds (deadlineAt start (rqTimeout req)) start arriving events end_ →
  Ranks sortBy req events = Some resp → rsTimeout resp = true → start + 1000000 * rqTimeout req <= end_.
Proof.
  intros [H1 H2] Hr HR Hf. rewrite <- deadline_exact by lia. exact (ranks_timed_out sortBy req _ start arriving events end_ resp H1 Hr HR Hf).
Qed.
Print Assumptions C112_not_before_the_deadline.

(** What is taken are the replies that arrive first, none of them twice, none before it is there. *)
Theorem C112_first_replies_are_taken deadline start arriving events end_ : timedRounds deadline start arriving events end_ →
  ∃ k, omap id events = (take k arriving).*2 ∧ (k <= length arriving)%nat ∧ ∀ a, a ∈ take k arriving → a.1 <= end_.
Proof. exact (rounds_taken deadline start arriving events end_). Qed.
Print Assumptions C112_first_replies_are_taken.

(** With a prompt scheduler the loop has ended by the deadline, whatever arrives; *)
Theorem C112_ends_by_the_deadline start arriving events end_ T : 0 <= T <= 9223372036854 →
  prompt_rounds (deadlineAt start T) start arriving events end_ → end_ <= start + 1000000 * T.
Proof. intros HT H%prompt_end. rewrite deadline_exact in H by lia. lia. Qed.
Print Assumptions C112_ends_by_the_deadline.
(** the replies that arrive before the deadline are all taken, in their order; *)
Theorem C112_replies_in_time_are_taken start arriving events end_ T k : 0 < T <= 9223372036854 →
  prompt_rounds (deadlineAt start T) start arriving events end_ → (k <= length events)%nat → (k <= length arriving)%nat →
  (∀ i a, (i < k)%nat → arriving !! i = Some a → a.1 < start + 1000000 * T) →
  take k events = Some <$> (take k arriving).*2.
Proof.
  intros HT H H1 H2 Ha. rewrite <- deadline_exact in Ha by lia.
  refine (prompt_takes _ _ _ _ _ H _ k H1 H2 Ha). rewrite deadline_exact; lia.
Qed.
Print Assumptions C112_replies_in_time_are_taken.
(** and if all of them do, the answer is the one without a timeout. *)
Theorem C112_in_time_as_without_timeout sortBy req start arriving events end_ :
  0 < rqTimeout req <= 9223372036854 → prompt_rounds (deadlineAt start (rqTimeout req)) start arriving events end_ →
  length events = length arriving → (∀ a, a ∈ arriving → a.1 < start + 1000000 * rqTimeout req) →
  Ranks sortBy req events =
    Ranks sortBy (mkReq (rqTokens req) (rqLabels req) (rqLogic req) (rqDocIds req) (rqOpts req) 0 (rqCountOnly req) (rqOrderless req))
      (Some <$> arriving.*2).
Proof.
  intros HT H Hl Ha. rewrite (prompt_all _ _ _ _ _ H Hl); [apply ranks_untimed|rewrite deadline_exact; lia|].
  intros a Hin. rewrite deadline_exact by lia. by apply Ha.
Qed.
Print Assumptions C112_in_time_as_without_timeout.

(** * Refuted: a very large timeout means waiting for all replies *)
(** With the largest int the deadline is a millisecond before the start: a prompt search can return
    nothing though all replies are there. *)
Theorem C112_largest_timeout_refuted : ∃ req arriving events,
  rqTimeout req = 2^63 - 1 ∧ deadlineAt 0 (rqTimeout req) = -1000000 ∧
  (∀ a, a ∈ arriving → a.1 <= 0) ∧ length events = length arriving ∧ length arriving = 2%nat ∧
  prompt_rounds (deadlineAt 0 (rqTimeout req)) 0 arriving events 0 ∧
  ∃ resp, Ranks insSortBy req events = Some resp ∧ rsTimeout resp = true ∧ rsDocs resp = Some [].
Proof.
  exists (exReq 0 0 false (2^63 - 1)), [(-5, mkReply None 0); (-3, mkReply None 0)], [None; None].
  split; [done|]. assert (E : deadlineAt 0 (2^63 - 1) = -1000000) by (vm_compute; reflexivity). split; [exact E|].
  split; [intros a [->|[->|H]%elem_of_cons]%elem_of_cons; [done..|by apply elem_of_nil in H]|]. split; [done|]. split; [done|].
  cbn [rqTimeout exReq]. rewrite E. split.
  - econstructor; [by apply RoundLate|intros u Hu; lia|]. econstructor; [by apply RoundLate|intros u Hu; lia|]. constructor.
  - eexists. split; [vm_compute; reflexivity|]. done.
Qed.
Print Assumptions C112_largest_timeout_refuted.

(** * Refuted: a search with a timeout returns in time *)
(** The clock is not looked at while the requests are being sent: with the channel of a shard full, a
    search waits, however late it is. *)
Theorem C112_sending_is_not_timed_refuted : ∃ shs ls s c req todo,
  exRun 1 ls (fInit 1 [[exReq 0 2 false 5]; [exReq 0 2 false 5]; [exReq 0 2 false 5]] 1 1 shs) = Some s ∧
  fProcs s !! 2%nat = Some (PSend c req 0 todo) ∧ 0 < rqTimeout req ∧
  ∀ late, exStep 1 (LProc 2 late) s = None.
Proof.
  assert (H : match exShards with
    | Some (sh :: _) =>
      match exRun 1 [LProc 0 false; LProc 0 false; LProc 3 false; LProc 1 false; LProc 1 false; LProc 2 false]
              (fInit 1 [[exReq 0 2 false 5]; [exReq 0 2 false 5]; [exReq 0 2 false 5]] 1 1 [sh]) with
      | Some s => match fProcs s !! 2%nat, exStep 1 (LProc 2 true) s, exStep 1 (LProc 2 false) s with
                  | Some (PSend _ req 0 _), None, None => 0 <? rqTimeout req | _, _, _ => false end
      | None => false end
    | _ => false end = true) by (vm_compute; reflexivity).
  destruct exShards as [[|sh shs]|]; [done| |done].
  destruct (exRun 1 _ _) as [s|] eqn:Es; [|done].
  destruct (fProcs s !! 2%nat) as [p|] eqn:Ep; [|done]. destruct p as [|c req [|i] todo| | | | | | | |]; try done.
  destruct (exStep 1 (LProc 2 true) s) eqn:E1; [done|]. destruct (exStep 1 (LProc 2 false) s) eqn:E2; [done|].
  eexists [sh], _, s, c, req, todo. split; [exact Es|]. split; [done|]. split; [by apply Z.ltb_lt|]. by intros [].
Qed.
Print Assumptions C112_sending_is_not_timed_refuted.

(** * Cases *)
(** Two shards answer after 1 and 4 ms, the timeout is 5 ms. *)
Example C112_case_in_time : 0 < rqTimeout (exReq 0 2 false 5) <= 9223372036854 ∧
  prompt_rounds (deadlineAt 100 5) 100 [(1000100, mkReply None 0); (4000100, mkReply None 0)] [Some (mkReply None 0); Some (mkReply None 0)] 4000100 ∧
  ∀ a, a ∈ [(1000100, mkReply None 0); (4000100, mkReply None 0)] → a.1 < 100 + 1000000 * 5.
Proof.
  split; [done|]. rewrite (deadline_exact 100 5) by lia. split.
  - eapply (PromptMore _ _ _ _ 1000100); [by apply RoundReply| |].
    { intros u Hu. split; [lia|]. intros a [= <-]. cbn. lia. }
    eapply (PromptMore _ _ _ _ 4000100); [by apply RoundReply| |constructor].
    intros u Hu. split; [lia|]. intros a [= <-]. cbn. lia.
  - intros a [->|[->|H]%elem_of_cons]%elem_of_cons; [cbn; lia..|by apply elem_of_nil in H].
Qed.
(** The second one answers after 7 ms. *)
Example C112_case_late : 
  prompt_rounds (deadlineAt 100 5) 100 [(1000100, mkReply None 0); (7000100, mkReply None 0)] [Some (mkReply None 0); None] 5000100 ∧
  ∃ resp, Ranks insSortBy (exReq 0 2 false 5) [Some (mkReply None 0); None] = Some resp ∧ rsTimeout resp = true.
Proof.
  rewrite (deadline_exact 100 5) by lia. split.
  - eapply (PromptMore _ _ _ _ 1000100); [by apply RoundReply| |].
    { intros u Hu. split; [lia|]. intros a [= <-]. cbn. lia. }
    eapply (PromptMore _ _ _ _ 5000100); [by apply RoundLate| |constructor].
    intros u Hu. split; [lia|]. intros a [= <-]. cbn. lia.
  - eexists. split; [vm_compute; reflexivity|done].
Qed.
