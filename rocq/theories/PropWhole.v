(** Theorems about the engine with UseStore: write pipeline and persistent store in one system. *)
From Verif Require Import ModelWhole ModelEngine SpecIndexer SpecSearch SpecRank SpecRoute SpecPipe SpecSegment SpecEngine SpecFlight SpecStore SpecEnd SpecLife
  SpecClose SpecWhole ProofIxThms ProofSortBy ProofFlushThms ProofEnd ProofLife ProofWhole ProofWholeThms ExampleTools PropPipe PropSegment PropEngine PropStore PropEnd PropLife.

(** The first enabled move of [order] is taken, [fuel] times, or until there is none. *)
Definition wNext murmur n rf rf2 nS (order : list wmove) (s : wstate) : option wstate :=
  foldr (λ m acc, match wmoveStep murmur n false rf cap1 accT encB nS rf2 m s with Some s' => Some s' | None => acc end) None order.
Fixpoint wRun murmur n rf rf2 nS (order : list wmove) (fuel : nat) (s : wstate) : wstate :=
  match fuel with
  | O => s
  | S m => match wNext murmur n rf rf2 nS order s with Some s' => wRun murmur n rf rf2 nS order m s' | None => s end
  end.
Lemma wRun_reach murmur n rf rf2 nS order fuel s :
  rtc (wholeStep murmur n false rf cap1 accT encB nS rf2) s (wRun murmur n rf rf2 nS order fuel s).
Proof.
  revert s. induction fuel as [|m IH]; intros s; [apply rtc_refl|]. cbn [wRun].
  destruct (wNext _ _ _ _ _ _ s) as [s'|] eqn:E; [|apply rtc_refl]. eapply rtc_l; [|apply IH].
  clear IH. unfold wNext in E. induction order as [|m' ms IH]; [done|]. cbn in E.
  destruct (wmoveStep _ _ _ _ _ _ _ _ _ m' s) as [s1|] eqn:E1; [|by apply IH]. injection E as <-. by exists m'.
Qed.
Definition wdoc (id : string) (d : DocData) : DocIndex :=
  match segDoc exX ∅ noGse id d with Some doc => doc | None => docA end.
Definition wix (id : string) (c : string) (force : bool) : wcall := WIndex (wdoc id (txt c)) (txt c) force.
Definition wPhases : list (list wcall) := [[wix "a" "Cat" false; wix "bb" "cat dog" true]; [wix "ccc" "Dog" false]].
Definition wProcs2 : list wmove := WMProc <$> rev (seq 0 9).
Definition wOrder : list wmove := wProcs2 ++ [WMWorker 0; WMWorker 1; WMDel 0; WMClient 0].
Definition wState rf rf2 (order : list wmove) phases : wstate :=
  wRun hashLen 2 rf rf2 2 order 400 (wholeInit 2 2 1 [wprogram phases]).
Definition wreturnedb (s : wstate) : bool := match wClients s with [mkWC [] [] _ _ _ _] => true | _ => false end.
Definition pipe_restb (s : wstate) : bool :=
  match wNet s with [] => forallb (λ p, match pActs p with [] => true | _ => false end) (wProcs s) | _ => false end.
Definition store_restb (s : wstate) : bool :=
  match wDels s with [] => forallb (λ w, match w with WIdle => true | _ => false end) (wWork s) | _ => false end.
Lemma wreturnedb_ok s : wreturnedb s = true → wreturned 0 s ∧ all_returned s.
Proof.
  unfold wreturnedb. destruct s as [[|[[] [] ? ? ? ?] []] ? ? ? ? ? ?]; try done. intros _. split.
  - eexists. split; [reflexivity|done].
  - by repeat constructor.
Qed.
Lemma pipe_restb_ok s : pipe_restb s = true → pipe_rest s.
Proof.
  unfold pipe_restb, pipe_rest. destruct (wNet s); [|done]. intros H. split; [done|]. apply Forall_forall. intros p Hp.
  rewrite forallb_forall in H. apply elem_of_list_In in Hp. specialize (H p Hp). by destruct (pActs p).
Qed.
Lemma store_restb_ok s : store_restb s = true → store_rest s.
Proof.
  unfold store_restb, store_rest. destruct (wDels s); [|done]. intros H. split; [|done]. apply Forall_forall. intros p Hp.
  rewrite forallb_forall in H. apply elem_of_list_In in Hp. specialize (H p Hp). by destruct p.
Qed.

(** * C82: the engine with UseStore *)
(** Every execution, seen from the pipeline, is one of the pipeline alone ... *)
Theorem C82_pipeline_view murmur n only reqsFirst cap accepts encode nS reqsFirst2 nseg progs s :
  whole_reach murmur n only reqsFirst cap accepts encode nS reqsFirst2 nseg progs s →
  ∃ q, pipe_reach murmur n only reqsFirst cap nseg (pipeProg <$> progs) q ∧ sNet q = wNet s ∧ sLog q = wLog s ∧
    (∀ k, wreturned k s → returned k q) ∧ (all_returned s → pipe_rest s → quiescent q).
Proof. exact (whole_pipe murmur n only reqsFirst cap accepts encode nS reqsFirst2 nseg progs s). Qed.
Print Assumptions C82_pipeline_view.
(** ... and seen from the store one of the store alone. *)
Theorem C82_store_view murmur n only reqsFirst cap accepts encode nS reqsFirst2 nseg progs s :
  whole_reach murmur n only reqsFirst cap accepts encode nS reqsFirst2 nseg progs s →
  ∃ q, store_reach accepts encode murmur nS (storeProg <$> progs) q ∧ ssLog q = wSLog s ∧ ssWork q = wWork s ∧ ssDels q = wDels s ∧
    (all_returned s → clients_done q) ∧ (all_returned s → store_rest s → store_quiet q).
Proof. exact (whole_store murmur n only reqsFirst cap accepts encode nS reqsFirst2 nseg progs s). Qed.
Print Assumptions C82_store_view.
(** The two sides count the same requests. *)
Theorem C82_requests_are_counted_once murmur n only reqsFirst cap accepts encode nS reqsFirst2 nseg progs s :
  whole_reach murmur n only reqsFirst cap accepts encode nS reqsFirst2 nseg progs s →
  value (wLog s) NumIndexingReqs = numReqs (wSLog s).
Proof. exact (whole_counts murmur n only reqsFirst cap accepts encode nS reqsFirst2 nseg progs s). Qed.
Print Assumptions C82_requests_are_counted_once.

(** When Flush returns, every document is in the indexers and in the files. *)
Theorem C82_flush_means_indexed_and_stored murmur n only reqsFirst cap accepts encode nS reqsFirst2 sortDocs o s0 nseg dbs phases s :
  1 <= n < 2^32 → valid_sort sortDocs → Init o = Some s0 →
  Forall (λ ph, good_phase (pipeProg ph)) phases → phases ≠ [] →
  whole_reach murmur n only reqsFirst cap accepts encode nS reqsFirst2 nseg [wprogram phases] s → wreturned 0 s →
  (∀ i, 0 <= i < n → ∃ ix M, run sortDocs (ixCalls i (wLog s)) s0 = Some ix ∧ shows ix M ∧ clean ix M ∧
     addCache ix = [] ∧ removeCache ix = [] ∧ ∀ id, M !! id = version murmur n i (pipeProg (wprogram phases)) id) ∧
  (∀ id, id ≠ "0" → closed_value accepts encode (dbs (storeShard murmur nS id) !! id) (storeProg (wprogram phases)) id
     (dbAfter murmur nS dbs (wSLog s) (storeShard murmur nS id) !! id)) ∧
  Forall (eq WIdle) (wWork s).
Proof. intros Hn. exact (flush_both murmur n only reqsFirst cap Hn accepts encode nS reqsFirst2 sortDocs o s0 nseg dbs phases s). Qed.
Print Assumptions C82_flush_means_indexed_and_stored.

(** A search in the running engine, and one after a restart from the files it wrote, give
    the same documents. *)
Theorem C82_restart_changes_no_answer murmur n only reqsFirst cap accepts encode nS reqsFirst2 X stop o iter decode
    sortDocs sortBy io s0 nseg phases s log2 req order shards progs2 s2 shards2 order2 :
  1 <= n < 2^32 → 1 <= nS < 2^32 → valid_iter iter → valid_range X →
  valid_sort sortDocs → valid_sortBy sortBy → Init io = Some s0 → round_trip encode decode →
  Forall (λ ph, good_phase (pipeProg ph)) phases → phases ≠ [] → once_each (pipeProg (wprogram phases)) →
  segmented X stop o accepts encode (wprogram phases) → no_removal (wprogram phases) →
  whole_reach murmur n only reqsFirst cap accepts encode nS reqsFirst2 nseg [wprogram phases] s → wreturned 0 s → pipe_rest s →
  engine_shards sortDocs s0 only n (pipePart s) shards →
  recoverProgs iter decode X stop o nS (dbAfter murmur nS (λ _, ∅) (wSLog s)) = Some progs2 →
  pipe_reach murmur n only reqsFirst cap nseg (progs2 ++ [[EFlush]]) s2 → quiescent s2 →
  engine_shards sortDocs s0 only n s2 shards2 → Forall nothing_waits shards2 →
  plain_request io req → scores_numbers log2 req (shards ++ shards2) →
  all_arrive (length shards) order → all_arrive (length shards2) order2 →
  ∃ full1 out1 full2 out2,
    Search log2 sortBy req shards order = Some (mkResp (rqTokens req) false (zlen full1) (Some out1)) ∧
    Search log2 sortBy req shards2 order2 = Some (mkResp (rqTokens req) false (zlen full2) (Some out2)) ∧
    answers_docs only X stop o (given (wprogram phases)) req full1 out1 ∧
    answers_docs only X stop o (given (wprogram phases)) req full2 out2 ∧
    same_documents (given (wprogram phases)) req full1 full2.
Proof.
  intros Hn HnS Hit HX. exact (restart_same murmur n only reqsFirst cap Hn accepts encode nS HnS reqsFirst2 X stop o iter Hit decode HX
    sortDocs sortBy io s0 nseg phases s log2 req order shards progs2 s2 shards2 order2).
Qed.
Print Assumptions C82_restart_changes_no_answer.

(** Flush does not wait for the removals in the store: the client has returned, no shard
    holds "a" any more, but the file still does, and a restart would bring it back. *)
Definition wRemPhases : list (list wcall) := [[wix "a" "Cat" false; wix "bb" "cat dog" true]; [WRemove "a" false]].
Theorem C82_flushed_removal_is_still_stored reqsFirst reqsFirst2 :
  ∃ s, whole_reach hashLen 2 false reqsFirst cap1 accT encB 2 reqsFirst2 1 [wprogram wRemPhases] s ∧ wreturned 0 s ∧ pipe_rest s ∧
    (∀ i, version hashLen 2 i (pipeProg (wprogram wRemPhases)) "a" = None) ∧
    lifeSearch "cat" (pipePart s) = Some (Some [("bb", "cat dog")], 1) ∧
    dbAfter hashLen 2 noDbs (wSLog s) (storeShard hashLen 2 "a") !! "a" = Some "Cat".
Proof.
  exists (wState reqsFirst reqsFirst2 (wProcs2 ++ [WMWorker 0; WMWorker 1; WMClient 0]) wRemPhases). split; [apply wRun_reach|].
  assert (H : wreturnedb (wState reqsFirst reqsFirst2 (wProcs2 ++ [WMWorker 0; WMWorker 1; WMClient 0]) wRemPhases) = true)
    by (destruct reqsFirst, reqsFirst2; by vm_compute).
  split; [by apply wreturnedb_ok|].
  split. { apply pipe_restb_ok. destruct reqsFirst, reqsFirst2; by vm_compute. }
  split. { intros i. done. }
  split; destruct reqsFirst, reqsFirst2; by vm_compute.
Qed.
Print Assumptions C82_flushed_removal_is_still_stored.

(** The client calls Flush before the store has written anything, and goes round its first
    loop until it has; then a restart and a search. *)
Definition wEarly rf rf2 : wstate :=
  wRun hashLen 2 rf rf2 2 wOrder 400 (wRun hashLen 2 rf rf2 2 (WMClient 0 :: wProcs2) 150 (wholeInit 2 2 1 [wprogram wPhases])).
Definition pNext murmur n rf (order : list nat) (s : pstate) : option pstate :=
  foldr (λ k acc, match psched murmur n false rf cap1 [k] s with Some s' => Some s' | None => acc end) None order.
Fixpoint pRun murmur n rf (order : list nat) (fuel : nat) (s : pstate) : pstate :=
  match fuel with
  | O => s
  | S m => match pNext murmur n rf order s with Some s' => pRun murmur n rf order m s' | None => s end
  end.
Lemma pRun_reach murmur n rf order fuel s : rtc (pipeStep murmur n false rf cap1) s (pRun murmur n rf order fuel s).
Proof.
  revert s. induction fuel as [|m IH]; intros s; [apply rtc_refl|]. cbn [pRun].
  destruct (pNext _ _ _ _ s) as [s'|] eqn:E; [|apply rtc_refl]. etrans; [|apply IH].
  clear IH. unfold pNext in E. induction order as [|m' ms IH]; [done|]. cbn [foldr] in E.
  destruct (psched _ _ _ _ _ [m'] s) as [s1|] eqn:E1; [|by apply IH]. injection E as <-. by eapply psched_reach.
Qed.
Definition wDbs (s : wstate) : Z → kv := dbAfter hashLen 2 (λ _, ∅) (wSLog s).
Definition wAgain rf (progs : list (list ecall)) : pstate :=
  pRun hashLen 2 rf (rev (seq 3 9) ++ [0; 1; 2]%nat) 400 (pipeInit 2 1 (progs ++ [[EFlush]])).

Definition wCheck rf (s : wstate) : bool :=
  wreturnedb s && pipe_restb s && store_restb s && Nat.eqb (length (endShards (pipePart s))) 2 &&
  bool_decide (lifeSearch "cat" (pipePart s) = Some (Some [("a", "Cat"); ("bb", "cat dog")], 2)) &&
  bool_decide (lifeSearch "dog" (pipePart s) = Some (Some [("ccc", "Dog"); ("bb", "cat dog")], 2)) &&
  match recoverProgs map_to_list decT exX ∅ noGse 2 (dbAfter hashLen 2 (λ _, ∅) (wSLog s)) with
  | Some progs2 => let s2 := wAgain rf progs2 in
    quiescentb s2 && Nat.eqb (length (endShards s2)) 2 && forallb idle (endShards s2) &&
    bool_decide (lifeSearch "cat" s2 = Some (Some [("a", "Cat"); ("bb", "cat dog")], 2)) &&
    bool_decide (lifeSearch "dog" s2 = Some (Some [("ccc", "Dog"); ("bb", "cat dog")], 2))
  | None => false
  end.
Example C82_case rf rf2 : let s := wEarly rf rf2 in ∃ s0 progs2, let s2 := wAgain rf progs2 in
  Init (optsF 2) = Some s0 ∧ Forall (λ ph, good_phase (pipeProg ph)) wPhases ∧ wPhases ≠ [] ∧ once_each (pipeProg (wprogram wPhases)) ∧
  segmented exX ∅ noGse accT encB (wprogram wPhases) ∧ no_removal (wprogram wPhases) ∧
  whole_reach hashLen 2 false rf cap1 accT encB 2 rf2 1 [wprogram wPhases] s ∧ wreturned 0 s ∧ all_returned s ∧ pipe_rest s ∧ store_rest s ∧
  engine_shards stableSort s0 false 2 (pipePart s) (endShards (pipePart s)) ∧
  recoverProgs map_to_list decT exX ∅ noGse 2 (dbAfter hashLen 2 (λ _, ∅) (wSLog s)) = Some progs2 ∧
  pipe_reach hashLen 2 false rf cap1 1 (progs2 ++ [[EFlush]]) s2 ∧ quiescent s2 ∧
  engine_shards stableSort s0 false 2 s2 (endShards s2) ∧ Forall nothing_waits (endShards s2) ∧
  lifeSearch "cat" (pipePart s) = Some (Some [("a", "Cat"); ("bb", "cat dog")], 2) ∧
  lifeSearch "cat" s2 = Some (Some [("a", "Cat"); ("bb", "cat dog")], 2) ∧
  lifeSearch "dog" (pipePart s) = Some (Some [("ccc", "Dog"); ("bb", "cat dog")], 2) ∧
  lifeSearch "dog" s2 = Some (Some [("ccc", "Dog"); ("bb", "cat dog")], 2).
Proof.
  assert (H : wCheck rf (wEarly rf rf2) = true) by (destruct rf, rf2; by vm_compute).
  assert (Hr : whole_reach hashLen 2 false rf cap1 accT encB 2 rf2 1 [wprogram wPhases] (wEarly rf rf2)).
  { unfold whole_reach, wEarly. etrans; apply wRun_reach. }
  cbv zeta. generalize dependent (wEarly rf rf2). intros s H Hr. unfold wCheck in H. rewrite !andb_true_iff, !bool_decide_eq_true in H.
  destruct H as ((((((Hret%wreturnedb_ok & Hp%pipe_restb_ok) & Hs%store_restb_ok) & Hl%Nat.eqb_eq) & H1) & H2) & H).
  destruct (recoverProgs map_to_list decT exX ∅ noGse 2 (dbAfter hashLen 2 (λ _, ∅) (wSLog s))) as [progs2|] eqn:Er; [|done].
  destruct (Init (optsF 2)) as [s0|] eqn:EI; [|done]. exists s0, progs2.
  assert (Hr2 : pipe_reach hashLen 2 false rf cap1 1 (progs2 ++ [[EFlush]]) (wAgain rf progs2)) by apply pRun_reach.
  generalize dependent (wAgain rf progs2). intros s2 H Hr2.
  rewrite !andb_true_iff, !bool_decide_eq_true in H. destruct H as ((((Hq%quiescentb_ok & Hl2%Nat.eqb_eq) & Hi) & H3) & H4).
  split; [reflexivity|].
  split.
  { repeat (apply Forall_cons; split); [..|apply Forall_nil; done];
      (split; [|apply (bool_decide_unpack _); by vm_compute]);
      repeat (apply Forall_cons; split); try (apply Forall_nil; done); (split; [apply (bool_decide_unpack _); by vm_compute|by vm_compute]). }
  split; [done|].
  split.
  { split; [|apply (bool_decide_unpack _); by vm_compute].
    repeat (apply Forall_cons; split); try (apply Forall_nil; done); (split; [first [apply (bool_decide_unpack _); by vm_compute|done]|by vm_compute]). }
  split.
  { intros doc d fo. unfold wprogram. cbn [wPhases fmap list_fmap mjoin list_join app]. rewrite !elem_of_cons, elem_of_nil. unfold wix.
    intros [[= -> -> ->]|[[= -> -> ->]|[?|[[= -> -> ->]|[?|[]]]]]]; try done; (split; [by vm_compute|eexists; split; by vm_compute]). }
  split.
  { intros id fo. unfold wprogram. cbn [wPhases fmap list_fmap mjoin list_join app]. rewrite !elem_of_cons, elem_of_nil. unfold wix.
    by intros [[=]|[[=]|[[=]|[[=]|[[=]|[]]]]]]. }
  split; [exact Hr|]. split; [exact (proj1 Hret)|]. split; [exact (proj2 Hret)|]. split; [exact Hp|]. split; [exact Hs|].
  split; [by apply endShards_ok|]. split; [reflexivity|]. split; [exact Hr2|]. split; [exact Hq|]. split; [by apply endShards_ok|].
  split. { apply Forall_forall. intros sh Hsh. rewrite forallb_forall in Hi. apply elem_of_list_In in Hsh. specialize (Hi sh Hsh).
    unfold idle in Hi. apply andb_true_iff in Hi as [Ha%Z.eqb_eq Hrc%Z.eqb_eq]. unfold zlen in *.
    split; [by destruct (addCache (shIx sh))|by destruct (removeCache (shIx sh))]. }
  exact (conj H1 (conj H3 (conj H2 H4))).
Qed.
