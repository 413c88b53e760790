(** Theorems about Close: engine.go:852-859, store_worker.go beside it. *)
From Verif Require Import ModelPipe ModelEngine ModelStore ModelClose SpecIndexer SpecSearch SpecRank SpecRoute SpecPipe SpecSegment SpecEngine
  SpecFlight SpecStore SpecEnd SpecLife SpecClose ProofSortBy ProofClose ProofCloseLife ExampleTools PropPipe PropSegment PropStore.

(** * C80: what Close keeps *)
(** One client: calls [cs], then Close, then any further calls [rest].  From the moment all
    databases are closed the files have the writes of [cs] and nothing of [rest]. *)
Theorem C80_files_after_close accepts encode murmur n dbs cs rest w id : 1 <= n < 2^32 → id ≠ "0" →
  close_reach accepts encode murmur n [(CCall <$> (cs : list scall)) ++ CloseCalls n ++ rest] w → all_down n w →
  closed_value accepts encode (dbs (storeShard murmur n id) !! id) cs id (fileAt murmur n dbs w (storeShard murmur n id) !! id).
Proof. intros Hn. exact (closed_lem accepts encode murmur n Hn dbs cs rest w id). Qed.
Print Assumptions C80_files_after_close.

(** Any number of clients: a closed file never changes. *)
Theorem C80_closed_files_are_final accepts encode murmur n dbs progs w w' j :
  close_reach accepts encode murmur n progs w → is_Some (mjoin (csDown w !! Z.to_nat j)) → rtc (closeStep accepts encode murmur n) w w' →
  fileAt murmur n dbs w' j = fileAt murmur n dbs w j.
Proof. exact (frozen_lem accepts encode murmur n dbs progs w w' j). Qed.
Print Assumptions C80_closed_files_are_final.

(** Index without removals, Close, start again, Flush, Search: exactly the documents indexed
    before Close (and those stored earlier) are found. *)
Theorem C80_search_after_close_and_restart murmur n only reqsFirst cap iter decode X stop o accepts encode sortDocs sortBy io s0 nseg nS
    dbs cs rest w progs s shards log2 req order :
  1 <= n < 2^32 → valid_iter iter → valid_range X → valid_sort sortDocs → valid_sortBy sortBy → Init io = Some s0 →
  1 <= nS < 2^32 → round_trip encode decode → placed murmur nS dbs → no_zero nS dbs →
  (∀ id, SRemove id ∉ cs) → (∀ id d, SIndex id d ∈ cs → ∃ v, writable accepts encode id d v) →
  close_reach accepts encode murmur nS [(CCall <$> (cs : list scall)) ++ CloseCalls nS ++ rest] w → all_down nS w →
  recoverProgs iter decode X stop o nS (fileAt murmur nS dbs w) = Some progs →
  pipe_reach murmur n only reqsFirst cap nseg (progs ++ [[EFlush]]) s → quiescent s →
  engine_shards sortDocs s0 only n s shards → Forall nothing_waits shards →
  plain_request io req → scores_numbers log2 req shards → all_arrive (length shards) order →
  ∃ full out, Search log2 sortBy req shards order = Some (mkResp (rqTokens req) false (zlen full) (Some out)) ∧
    answers_docs only X stop o (survives murmur nS decode dbs cs) req full out.
Proof.
  intros Hn Hit HX. exact (close_life murmur n only reqsFirst cap Hn iter Hit decode X stop o HX accepts encode sortDocs sortBy io s0 nseg nS
    dbs cs rest w progs s shards log2 req order).
Qed.
Print Assumptions C80_search_after_close_and_restart.

(** * C80: what Close loses *)
Definition close_check progs (ms : list cmove) (P : cstate → bool) : bool :=
  match csched accT encB hashLen 2 ms (closeStart 2 progs) with Some s => P s | None => false end.
Lemma csched_reach ms : ∀ s s', csched accT encB hashLen 2 ms s = Some s' → rtc (closeStep accT encB hashLen 2) s s'.
Proof.
  unfold csched. induction ms as [|m ms IH]; intros s s' H; [by injection H as ->|].
  cbn in H. destruct (cmoveStep accT encB hashLen 2 m s) as [s1|] eqn:E; [|done]. eapply rtc_l; [by exists m|]. by apply IH.
Qed.
Lemma close_check_ok progs ms P : close_check progs ms P = true → ∃ s, close_reach accT encB hashLen 2 progs s ∧ P s = true.
Proof.
  unfold close_check. destruct (csched _ _ _ _ _ _) as [s|] eqn:E; [|done]. intros HP. exists s. split; [|done].
  unfold close_reach. by eapply csched_reach.
Qed.
Definition cquietb (s : cstate) : bool := quietb (csBase s) && forallb (λ r, match r with [] => true | _ => false end) (csRem s).
Lemma cquietb_ok s : cquietb s = true → close_quiet s.
Proof.
  unfold cquietb. rewrite andb_true_iff, forallb_forall. intros [H1%quietb_ok H2]. split; [done|].
  apply Forall_forall. intros r Hr. apply elem_of_list_In in Hr. specialize (H2 r Hr). by destruct r.
Qed.
Definition downb (s : cstate) : bool := match csDown s with [Some _; Some _] => true | _ => false end.
Lemma downb_ok s : downb s = true → all_down 2 s.
Proof.
  unfold downb. intros H j Hj. destruct (csDown s) as [|[p|] [|[q|] []]]; try done.
  assert (j = 0 ∨ j = 1) as [->| ->] by lia; [by exists p|by exists q].
Qed.
Definition fileOf (s : cstate) (id : string) : option string := fileAt hashLen 2 noDbs s (storeShard hashLen 2 id) !! id.
Definition mv (k : nat) : cmove := CM (MClient k).
Definition wk (j : nat) : cmove := CM (MWorker j).

(** Index "a", Index "bb", Close; then Index "a" again and Flush, which return normally *)
Definition closeCalls : list scall := [SIndex "a" (txt "one"); SIndex "bb" (txt "two")].
Definition lateCalls : list ccall := [CCall (SIndex "a" (txt "late")); CCall SFlush].
Example C80_case : ∃ w, close_reach accT encB hashLen 2 [(CCall <$> closeCalls) ++ CloseCalls 2 ++ lateCalls] w ∧ all_down 2 w ∧
  close_quiet w ∧ fileOf w "a" = Some "one" ∧ fileOf w "bb" = Some "two" ∧
  closed_value accT encB None closeCalls "a" (Some "one") ∧ (∀ id, SRemove id ∉ closeCalls).
Proof.
  destruct (close_check_ok [(CCall <$> closeCalls) ++ CloseCalls 2 ++ lateCalls]
    [CNext 0; mv 0; mv 0; mv 0; wk 1; CNext 0; mv 0; mv 0; mv 0; wk 0; wk 1; wk 0; CNext 0; mv 0; mv 0; mv 0; CNext 0; CNext 0;
     CNext 0; mv 0; mv 0; mv 0; wk 1; wk 1; CNext 0; mv 0; mv 0; mv 0]
    (λ w, downb w && cquietb w && bool_decide (fileOf w "a" = Some "one") && bool_decide (fileOf w "bb" = Some "two"))) as (w & Hw & H); [by vm_compute|].
  rewrite !andb_true_iff, !bool_decide_eq_true in H. destruct H as (((H1%downb_ok & H2%cquietb_ok) & H3) & H4). exists w.
  split; [exact Hw|]. split; [exact H1|]. split; [exact H2|]. split; [exact H3|]. split; [exact H4|]. split.
  - left. exists "one". split; [|done]. exists [], (txt "one"), [SIndex "bb" (txt "two")]. split; [done|]. split; [done|].
    intros d' v'. rewrite elem_of_list_singleton. by intros [=].
  - intros id. unfold closeCalls. rewrite !elem_of_cons, elem_of_nil. by intros [[=]|[[=]|[]]].
Qed.

(** An Index call after Close, and a Flush after it, return; nothing is stored. *)
Theorem C80_index_after_close_is_stored_refuted : ∃ w id d v,
  close_reach accT encB hashLen 2 [CloseCalls 2 ++ [CCall (SIndex id d); CCall SFlush]] w ∧ close_quiet w ∧ writable accT encB id d v ∧ id ≠ "0" ∧
  ∀ j, 0 <= j < 2 → fileAt hashLen 2 noDbs w j !! id = None.
Proof.
  destruct (close_check_ok [CloseCalls 2 ++ [CCall (SIndex "a" (txt "one")); CCall SFlush]]
    [CNext 0; mv 0; mv 0; mv 0; CNext 0; CNext 0; CNext 0; mv 0; mv 0; mv 0; wk 1; wk 1; CNext 0; mv 0; mv 0; mv 0]
    (λ w, cquietb w && bool_decide (fileAt hashLen 2 noDbs w 0 !! "a" = None) && bool_decide (fileAt hashLen 2 noDbs w 1 !! "a" = None))) as (w & Hw & H); [by vm_compute|].
  rewrite !andb_true_iff, !bool_decide_eq_true in H. destruct H as ((H1%cquietb_ok & H2) & H3). exists w, "a", (txt "one"), "one".
  split; [exact Hw|]. split; [exact H1|]. split; [done|]. split; [done|]. intros j Hj. assert (j = 0 ∨ j = 1) as [->| ->] by lia; done.
Qed.
Print Assumptions C80_index_after_close_is_stored_refuted.

(** Two clients: Index of client 1 returned before any database was closed, its Flush returned,
    and the document is not stored. *)
Theorem C80_close_beside_a_client_refuted : ∃ w0 w id d v,
  let progs := [CloseCalls 2; [CCall (SIndex id d); CCall SFlush]] in
  close_reach accT encB hashLen 2 progs w0 ∧ csDown w0 = [None; None] ∧ csRem w0 !! 1%nat = Some [CCall SFlush] ∧
  ssClients (csBase w0) !! 1%nat = Some (mkSC [] [] 0) ∧
  rtc (closeStep accT encB hashLen 2) w0 w ∧ close_quiet w ∧ writable accT encB id d v ∧ id ≠ "0" ∧
  ∀ j, 0 <= j < 2 → fileAt hashLen 2 noDbs w j !! id = None.
Proof.
  set (progs := [CloseCalls 2; [CCall (SIndex "a" (txt "one")); CCall SFlush]]).
  set (m1 := [CNext 0; mv 0; mv 0; mv 0; CNext 1; mv 1; mv 1; mv 1]).
  set (m2 := [CNext 0; CNext 0; wk 1; wk 1; CNext 1; mv 1; mv 1; mv 1]).
  destruct (csched accT encB hashLen 2 m1 (closeStart 2 progs)) as [w0|] eqn:E0; [|vm_compute in E0; discriminate E0].
  assert (HX : match csched accT encB hashLen 2 m1 (closeStart 2 progs) with
    | Some w0 => match csched accT encB hashLen 2 m2 w0 with
      | Some w => match csDown w0 with [None; None] => true | _ => false end &&
        match csRem w0 !! 1%nat with Some [CCall SFlush] => true | _ => false end &&
        match ssClients (csBase w0) !! 1%nat with Some (mkSC [] [] 0) => true | _ => false end &&
        cquietb w && bool_decide (fileAt hashLen 2 noDbs w 0 !! "a" = None) && bool_decide (fileAt hashLen 2 noDbs w 1 !! "a" = None)
      | None => false end
    | None => false end = true) by by vm_compute.
  rewrite E0 in HX. destruct (csched accT encB hashLen 2 m2 w0) as [w|] eqn:E1; [|discriminate HX].
  rewrite !andb_true_iff, !bool_decide_eq_true in HX. destruct HX as (((((H1 & H2) & H3) & H4%cquietb_ok) & H5) & H6).
  exists w0, w, "a", (txt "one"), "one". split; [by apply csched_reach in E0|].
  split. { destruct (csDown w0) as [|[] [|[] []]]; try discriminate H1. done. }
  split. { destruct (csRem w0 !! 1%nat) as [[|[[]|] []]|]; try discriminate H2. done. }
  split. { destruct (ssClients (csBase w0) !! 1%nat) as [[[] [] []]|]; try discriminate H3. done. }
  split; [by apply csched_reach in E1|]. split; [exact H4|]. split; [done|]. split; [done|].
  intros j Hj. assert (j = 0 ∨ j = 1) as [->| ->] by lia; done.
Qed.
Print Assumptions C80_close_beside_a_client_refuted.

(** Index, Flush, RemoveDoc, Close by one client: the removed document is still in the files. *)
Theorem C80_removal_before_close_refuted : ∃ w id d v,
  close_reach accT encB hashLen 2 [[CCall (SIndex id d); CCall SFlush; CCall (SRemove id)] ++ CloseCalls 2] w ∧ all_down 2 w ∧ close_quiet w ∧
  writable accT encB id d v ∧ id ≠ "0" ∧ fileAt hashLen 2 noDbs w (storeShard hashLen 2 id) !! id = Some v.
Proof.
  destruct (close_check_ok [[CCall (SIndex "a" (txt "one")); CCall SFlush; CCall (SRemove "a")] ++ CloseCalls 2]
    [CNext 0; mv 0; mv 0; mv 0; wk 1; wk 1; CNext 0; mv 0; mv 0; mv 0; CNext 0; mv 0; mv 0; CNext 0; mv 0; mv 0; mv 0; CNext 0; CNext 0; CM (MDel 0)]
    (λ w, downb w && cquietb w && bool_decide (fileOf w "a" = Some "one"))) as (w & Hw & H); [by vm_compute|].
  rewrite !andb_true_iff, !bool_decide_eq_true in H. destruct H as ((H1%downb_ok & H2%cquietb_ok) & H3). exists w, "a", (txt "one"), "one".
  split; [exact Hw|]. split; [exact H1|]. split; [exact H2|]. split; [done|]. split; [done|]. exact H3.
Qed.
Print Assumptions C80_removal_before_close_refuted.
