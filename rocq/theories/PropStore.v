(** Theorems about the persistent store: store/*.go, store_worker.go, the store parts of
    engine.go and riot.go. *)
From Verif Require Import ModelPipe ModelStore SpecIndexer SpecSearch SpecRoute SpecPipe SpecSegment SpecStore ProofStore ProofStoreRun ProofStoreThms
  ProofStoreSched ProofStoreEnd ProofRecover PropPipe PropSegment ExampleTools.

(** An instance: a codec for data without attributes, tokens, labels and fields, and a
    database that refuses only the empty key. *)
Definition encT (d : DocData) : option string :=
  match d with mkData c INil [] [] INil => Some c | _ => None end.
Definition decT (v : string) : DocData * bool := (mkData v INil [] [] INil, seqb v "broken").
Definition encB (d : DocData) : option string := match encT d with Some c => if seqb c "broken" then None else Some c | None => None end.
Definition accT (k v : string) : bool := negb (seqb k "").
Definition txt (c : string) : DocData := mkData c INil [] [] INil.
Lemma codec_ok : round_trip encB decT.
Proof.
  intros [c [] [|] [|] []] v; cbn; try done. destruct (seqb c "broken") eqn:E; [done|]. intros [= <-]. unfold decT. by rewrite E.
Qed.
Lemma iter_ok : valid_iter map_to_list.
Proof. by intros db. Qed.
Local Instance Iface_eq : EqDecision Iface. Proof. solve_decision. Defined.
Local Instance TokenData_eq : EqDecision TokenData. Proof. solve_decision. Defined.
Local Instance DocData_eq : EqDecision DocData. Proof. solve_decision. Defined.
Local Instance sevent_eq : EqDecision sevent. Proof. solve_decision. Defined.
Definition noDbs : Z → kv := λ _, ∅.

(** * C45: a store is a map; recovery reloads exactly what is stored *)
Theorem C45_get_after_set accepts e k k' v db : accepts k v = true →
  Get e k' (Set_ accepts k v db).1 = if decide (k' = k) then (v, false) else Get e k' db.
Proof. exact (Get_Set accepts e k k' v db). Qed.
Print Assumptions C45_get_after_set.
Theorem C45_refused_set_changes_nothing accepts k v db : accepts k v = false → Set_ accepts k v db = (db, true).
Proof. exact (Set_refused accepts k v db). Qed.
Print Assumptions C45_refused_set_changes_nothing.
Theorem C45_get_after_delete e k k' db :
  Get e k' (Delete k db) = if decide (k' = k) then Get e k' ∅ else Get e k' db.
Proof. exact (Get_Delete e k k' db). Qed.
Print Assumptions C45_get_after_delete.
(** Bolt reports a key with an empty value as missing. *)
Theorem C45_has e k db :
  (Has e k db).1 = true ↔ match e with Bolt => ∃ v, db !! k = Some v ∧ v ≠ "" | _ => is_Some (db !! k) end.
Proof. exact (Has_spec (λ _ _, true) e k db). Qed.
Print Assumptions C45_has.
(** An iteration hands every entry to the function, until the function fails. *)
Theorem C45_foreach_visits_all iter {A} (g : A → string → string → A) db a : valid_iter iter →
  ∃ l, l ≡ₚ map_to_list db ∧
    ForEach iter (λ a k v, (g a k v, false)) db a = (foldl (λ a kv, g a kv.1 kv.2) a l, false).
Proof. intros Hit. exists (iter db). split; [apply Hit|]. apply forEach_fold. Qed.
Print Assumptions C45_foreach_visits_all.
Theorem C45_foreach_stops_at_an_error iter {A} (fn : A → string → string → A * bool) db l1 k v l2 a a1 a2 :
  iter db = l1 ++ (k, v) :: l2 → forEach fn l1 a = (a1, false) → fn a1 k v = (a2, true) → ForEach iter fn db a = (a2, true).
Proof. unfold ForEach. intros ->. apply forEach_stops. Qed.
Print Assumptions C45_foreach_stops_at_an_error.
(** One client, no removals, data that can be stored, then a restart with the same
    number of store shards: the recovered documents are the last data of every id, and
    for ids not indexed what was stored before; each id once. *)
Theorem C45_recovery_is_exact accepts encode murmur n dbs iter decode cs s rs id d : 1 <= n < 2^32 →
  valid_iter iter → round_trip encode decode → placed murmur n dbs →
  (∀ id, SRemove id ∉ cs) → (∀ id d, SIndex id d ∈ cs → ∃ v, writable accepts encode id d v) →
  store_reach accepts encode murmur n [cs] s → store_quiet s →
  restart iter decode n (dbAfter murmur n dbs (ssLog s)) rs →
  NoDup rs.*1 ∧
  ((id, d) ∈ rs ↔
    (id ≠ "0" ∧ last_data cs id d) ∨
    ((id = "0" ∨ ∀ d', SIndex id d' ∉ cs) ∧ ∃ v, dbs (storeShard murmur n id) !! id = Some v ∧ decode v = (d, false))).
Proof. exact (recover_lem accepts encode murmur n dbs iter decode cs s rs id d). Qed.
Print Assumptions C45_recovery_is_exact.
(** Whatever the calls were, the databases stay in the form the above asks for. *)
Theorem C45_every_key_stays_in_its_shard murmur n dbs log :
  placed murmur n dbs → placed murmur n (dbAfter murmur n dbs log).
Proof. exact (dbAfter_placed murmur n dbs log). Qed.
Print Assumptions C45_every_key_stays_in_its_shard.
(** GetDBAllIds: every stored id once. *)
Theorem C45_all_ids iter murmur n dbs : valid_iter iter → 1 <= n < 2^32 → placed murmur n dbs →
  NoDup (GetDBAllIds iter (dbs <$> seqZ 0 n)) ∧
  ∀ id, id ∈ GetDBAllIds iter (dbs <$> seqZ 0 n) ↔ is_Some (dbs (storeShard murmur n id) !! id).
Proof. exact (λ Hit, ids_lem iter Hit murmur n dbs). Qed.
Print Assumptions C45_all_ids.
(** GetDBAllDocs: the same ids, with what the decoder produced, also when it failed. *)
Theorem C45_all_docs iter decode murmur n dbs ids docs : valid_iter iter → 1 <= n < 2^32 → placed murmur n dbs →
  GetDBAllDocs iter decode (dbs <$> seqZ 0 n) = (ids, docs) →
  ids = GetDBAllIds iter (dbs <$> seqZ 0 n) ∧ length docs = length ids ∧
  ∀ id d, (id, d) ∈ zip ids docs ↔ ∃ v, dbs (storeShard murmur n id) !! id = Some v ∧ d = (decode v).1.
Proof. exact (λ Hit Hn Hp, docs_lem iter Hit decode murmur n dbs Hn Hp ids docs). Qed.
Print Assumptions C45_all_docs.
(** The engine opened: the argument, else the environment, else leveldb; unknown names are errors. *)
Theorem C45_open_store arg env : OpenStore arg env =
  supportedStore (if decide (arg = "") then if decide (env = "") then "ldb" else env else arg).
Proof.
  unfold OpenStore. destruct (seqb arg "") eqn:E1; [apply seqb_eq in E1|apply seqb_neq in E1]; cbn; case_decide; try done.
  destruct (seqb env "") eqn:E2; [apply seqb_eq in E2|apply seqb_neq in E2]; cbn; case_decide; done.
Qed.
Print Assumptions C45_open_store.

(** Executions of the store side: [P] holds after the moves [ms]. *)
Definition store_check murmur n progs (ms : list smove) (P : sstate → bool) : bool :=
  match ssched accT encB murmur n ms (storeStart n progs) with Some s => P s | None => false end.
Lemma ssched_reach murmur n ms : ∀ s s', ssched accT encB murmur n ms s = Some s' → rtc (storeStep accT encB murmur n) s s'.
Proof.
  unfold ssched. induction ms as [|m ms IH]; intros s s' H; [by injection H as ->|].
  cbn in H. destruct (smoveStep accT encB murmur n m s) as [s1|] eqn:E; [|done]. eapply rtc_l; [by exists m|]. by apply IH.
Qed.
Lemma store_check_ok murmur n progs ms P : store_check murmur n progs ms P = true →
  ∃ s, store_reach accT encB murmur n progs s ∧ P s = true.
Proof.
  unfold store_check. destruct (ssched _ _ _ _ _ _) as [s|] eqn:E; [|done]. intros HP. exists s. split; [|done].
  unfold store_reach. by eapply ssched_reach.
Qed.
Definition quietb (s : sstate) : bool :=
  forallb (λ c, match scCalls c, scActs c with [], [] => true | _, _ => false end) (ssClients s) &&
  forallb (λ w, match w with WIdle => true | _ => false end) (ssWork s) && match ssDels s with [] => true | _ => false end.
Lemma quietb_ok s : quietb s = true → store_quiet s.
Proof.
  unfold quietb. rewrite !andb_true_iff, !forallb_forall. intros [[H1 H2] H3]. split; [|split].
  - apply Forall_forall. intros c Hc. apply elem_of_list_In in Hc; specialize (H1 c Hc). by destruct (scCalls c), (scActs c).
  - apply Forall_forall. intros w Hw. apply elem_of_list_In in Hw; specialize (H2 w Hw). by destruct w.
  - by destruct (ssDels s).
Qed.
Definition hashLen (s : string) : Z := strlen s.
Definition valueAt murmur n (s : sstate) (id : string) : option string :=
  dbAfter murmur n noDbs (ssLog s) (storeShard murmur n id) !! id.
Definition cl : smove := MClient 0.

(** Two shards; "a" is indexed twice, "bb" is in the other shard; the second write of "a"
    waits for the first. *)
Definition exCalls : list scall := [SIndex "a" (txt "one"); SIndex "bb" (txt "two"); SIndex "0" (txt "x"); SIndex "a" (txt "three")].
Example C45_case :
  (∀ id, SRemove id ∉ exCalls) ∧ (∀ id d, SIndex id d ∈ exCalls → ∃ v, writable accT encB id d v) ∧ placed hashLen 2 noDbs ∧
  (∃ s, store_reach accT encB hashLen 2 [exCalls] s ∧ store_quiet s ∧
     valueAt hashLen 2 s "a" = Some "three" ∧ valueAt hashLen 2 s "bb" = Some "two" ∧
     restart map_to_list decT 2 (dbAfter hashLen 2 noDbs (ssLog s)) [("bb", txt "two"); ("a", txt "three")]) ∧
  last_data exCalls "a" (txt "three").
Proof.
  split; [|split; [|split; [|split]]].
  - intros id. unfold exCalls. rewrite !elem_of_cons, elem_of_nil. naive_solver.
  - intros id d. unfold exCalls. rewrite !elem_of_cons, elem_of_nil.
    intros [[= -> ->]|[[= -> ->]|[[= -> ->]|[[= -> ->]|[]]]]]; eexists; (split; [reflexivity|reflexivity]).
  - intros j id _ [v Hv]. unfold noDbs in Hv. by rewrite lookup_empty in Hv.
  - destruct (store_check_ok hashLen 2 [exCalls]
      [cl; cl; cl; cl; cl; cl; MWorker 0; MWorker 1; MWorker 1; cl; cl; cl; MWorker 0; cl; MWorker 1; MWorker 1]
      (λ s, quietb s && bool_decide (valueAt hashLen 2 s "a" = Some "three") && bool_decide (valueAt hashLen 2 s "bb" = Some "two") &&
        bool_decide (storeInit map_to_list decT (dbAfter hashLen 2 noDbs (ssLog s) 0) = [("bb", txt "two")]) &&
        bool_decide (storeInit map_to_list decT (dbAfter hashLen 2 noDbs (ssLog s) 1) = [("a", txt "three")]))) as (s & Hs & H); [by vm_compute|].
    rewrite !andb_true_iff, !bool_decide_eq_true in H. destruct H as [[[[H1%quietb_ok H2] H3] H4] H5]. exists s.
    repeat (split; [done|]). unfold restart. change (seqZ 0 2) with [0; 1]. rewrite !fmap_cons, H4, H5. apply (merges_total [[("bb", txt "two")]; [("a", txt "three")]]).
  - exists [SIndex "a" (txt "one"); SIndex "bb" (txt "two"); SIndex "0" (txt "x")], []. split; [done|]. intros d'. apply not_elem_of_nil.
Qed.

(** Flush may read numDocsStored first: here it reads 0, 1 request is then counted, so it
    starts again, and gets through once the write has been counted. *)
Example C45_other_read_order : ∃ s s', store_reach accT encB hashLen 2 [[SIndex "a" (txt "one"); SFlush]] s ∧ ¬ clients_done s ∧
  rtc (storeStep accT encB hashLen 2) s s' ∧ clients_done s' ∧ valueAt hashLen 2 s' "a" = Some "one".
Proof.
  destruct (ssched accT encB hashLen 2 [cl; cl; cl; cl; MAlt 0; MWorker 1; cl] (storeStart 2 [[SIndex "a" (txt "one"); SFlush]]))
    as [s|] eqn:E; [|by vm_compute in E]. exists s.
  destruct (ssched accT encB hashLen 2 [MWorker 1; MAlt 0; cl] s) as [s'|] eqn:E'; [|vm_compute in E; injection E as <-; by vm_compute in E'].
  exists s'. split; [by eapply ssched_reach|]. vm_compute in E. injection E as <-. split.
  { intros H. apply Forall_cons in H as [[_ H] _]. done. }
  split; [by eapply ssched_reach|]. vm_compute in E'. injection E' as <-. split; [by repeat constructor|done].
Qed.

(** * C46: removals are not ordered with writes *)
(** One client, everything carried out: the value of the last write that could be made,
    or removed (only ids with a RemoveDoc call), or untouched. *)
Theorem C46_outcomes accepts encode murmur n dbs cs s id : id ≠ "0" →
  store_reach accepts encode murmur n [cs] s → store_quiet s →
  let value := dbAfter murmur n dbs (ssLog s) (storeShard murmur n id) !! id in
  (∃ v, last_written accepts encode cs id v ∧ value = Some v) ∨
  (SRemove id ∈ cs ∧ value = None) ∨
  (SRemove id ∉ cs ∧ never_written accepts encode cs id ∧ value = dbs (storeShard murmur n id) !! id).
Proof. exact (outcomes_lem accepts encode murmur n dbs cs s id). Qed.
Print Assumptions C46_outcomes.
(** For every program the removals can all come last: a document whose last call was
    Index is then not stored. *)
Theorem C46_every_removal_can_win accepts encode murmur n dbs cs : 1 <= n →
  ∃ s, store_reach accepts encode murmur n [cs] s ∧ store_quiet s ∧
    ∀ id, id ≠ "0" → SRemove id ∈ cs → dbAfter murmur n dbs (ssLog s) (storeShard murmur n id) !! id = None.
Proof. exact (removals_win_lem accepts encode murmur n dbs cs). Qed.
Print Assumptions C46_every_removal_can_win.
(** And the last removal can come first: the removed document is recovered by every restart. *)
Theorem C46_removed_document_comes_back accepts encode murmur n dbs iter decode cs id d v :
  1 <= n → valid_iter iter → round_trip encode decode → id ≠ "0" → writable accepts encode id d v →
  ∃ s, store_reach accepts encode murmur n [cs ++ [SIndex id d; SRemove id]] s ∧ store_quiet s ∧
    dbAfter murmur n dbs (ssLog s) (storeShard murmur n id) !! id = Some v ∧
    ∀ rs, restart iter decode n (dbAfter murmur n dbs (ssLog s)) rs → (id, d) ∈ rs.
Proof.
  intros Hn Hit Hrt H0 Hv. destruct (removal_lost_lem accepts encode murmur n dbs cs id d v Hn H0 Hv) as (s & Hr & Hq & Hc).
  exists s. split; [done|]. split; [done|]. split; [done|]. intros rs Hrs. apply (restart_in iter Hit decode _ _ _ id d Hrs).
  exists (storeShard murmur n id), v. split; [by apply shard_range|]. split; [done|]. apply Hrt, Hv.
Qed.
Print Assumptions C46_removed_document_comes_back.
(** Flush waits for writes only: after Index, Flush, RemoveDoc, Flush the deletion can
    still be outstanding.  Closing at this point loses it. *)
Theorem C46_flush_does_not_wait_for_removals accepts encode murmur n dbs cs id d v :
  1 <= n → id ≠ "0" → writable accepts encode id d v →
  ∃ s, store_reach accepts encode murmur n [cs ++ [SIndex id d; SFlush; SRemove id; SFlush]] s ∧
    clients_done s ∧ Forall (eq WIdle) (ssWork s) ∧ ssDels s = [id] ∧
    dbAfter murmur n dbs (ssLog s) (storeShard murmur n id) !! id = Some v.
Proof. exact (close_loses_lem accepts encode murmur n dbs cs id d v). Qed.
Print Assumptions C46_flush_does_not_wait_for_removals.
(** A Flush between the last Index and the RemoveDoc orders the two. *)
Theorem C46_removal_after_flush_is_final accepts encode murmur n dbs cs1 cs2 s id : 1 <= n < 2^32 → id ≠ "0" →
  store_reach accepts encode murmur n [cs1 ++ SFlush :: cs2] s → store_quiet s →
  SRemove id ∈ cs2 → (∀ d, SIndex id d ∉ cs2) →
  dbAfter murmur n dbs (ssLog s) (storeShard murmur n id) !! id = None.
Proof. intros Hn. exact (after_flush_lem accepts encode murmur n Hn dbs cs1 cs2 s id). Qed.
Print Assumptions C46_removal_after_flush_is_final.
(** Any number of clients: if requests on [id] start only after earlier ones on [id] were
    carried out, the store behaves as a map. *)
Theorem C46_ordered_requests_give_the_map accepts encode murmur n dbs progs s id :
  store_reach accepts encode murmur n progs s → store_quiet s → orderly id (ssLog s) →
  dbAfter murmur n dbs (ssLog s) (storeShard murmur n id) !! id =
    map_value accepts encode (dbs (storeShard murmur n id) !! id) (requests (ssLog s)) id.
Proof. exact (orderly_lem accepts encode murmur n dbs progs s id). Qed.
Print Assumptions C46_ordered_requests_give_the_map.

Definition orderlyb (id : string) (log : list sevent) : bool :=
  forallb (λ k, match log !! k with
    | Some e => if starts_on id e then bool_decide (length (filter (λ e, starts_on id e = true) (take k log)) = length (filter (λ e, ends_on id e = true) (take k log))) else true
    | None => true end) (seq 0 (length log)).
Lemma orderlyb_ok id log : orderlyb id log = true → orderly id log.
Proof.
  unfold orderlyb. rewrite forallb_forall. intros H l1 e l2 -> He. specialize (H (length l1)).
  rewrite list_lookup_middle, He, take_app in H by done. apply (proj1 (bool_decide_eq_true _)), H. apply in_seq. rewrite app_length. cbn. lia.
Qed.
(** Index then RemoveDoc, without and with waiting *)
Example C46_case : let cs := [SIndex "a" (txt "one"); SRemove "a"] in
  (∃ s, store_reach accT encB hashLen 2 [cs] s ∧ store_quiet s ∧ valueAt hashLen 2 s "a" = Some "one" ∧ ¬ orderly "a" (ssLog s)) ∧
  (∃ s, store_reach accT encB hashLen 2 [cs] s ∧ store_quiet s ∧ valueAt hashLen 2 s "a" = None ∧ orderly "a" (ssLog s)) ∧
  (∃ s, store_reach accT encB hashLen 2 [[SIndex "a" (txt "one"); SFlush; SRemove "a"]] s ∧ store_quiet s) ∧
  writable accT encB "a" (txt "one") "one" ∧ encB (mkData "x" (IOther 1) [] [] INil) = None.
Proof.
  split; [|split; [|split; [|done]]].
  - destruct (store_check_ok hashLen 2 [[SIndex "a" (txt "one"); SRemove "a"]] [cl; cl; cl; cl; cl; MDel 0; MWorker 1; MWorker 1]
      (λ s, quietb s && bool_decide (valueAt hashLen 2 s "a" = Some "one") &&
        bool_decide (ssLog s !! 2%nat = Some (EvSpawn "a")) && bool_decide (take 2 (ssLog s) = [EvReq; EvSent "a" (txt "one")]))) as (s & Hs & H); [by vm_compute|].
    rewrite !andb_true_iff, !bool_decide_eq_true in H. destruct H as [[[H1%quietb_ok H2] H3] H4]. exists s.
    repeat (split; [done|]). intros Ho. pose proof (Ho _ _ _ (eq_sym (take_drop_middle _ _ _ H3)) eq_refl) as Hx. rewrite H4 in Hx.
    vm_compute in Hx. discriminate Hx.
  - destruct (store_check_ok hashLen 2 [[SIndex "a" (txt "one"); SRemove "a"]] [cl; cl; cl; MWorker 1; cl; cl; MWorker 1; MDel 0]
      (λ s, quietb s && bool_decide (valueAt hashLen 2 s "a" = None) && orderlyb "a" (ssLog s))) as (s & Hs & H); [by vm_compute|].
    rewrite !andb_true_iff, !bool_decide_eq_true in H. destruct H as [[H1%quietb_ok H2] H3%orderlyb_ok]. by exists s.
  - destruct (store_check_ok hashLen 2 [[SIndex "a" (txt "one"); SFlush; SRemove "a"]]
      [cl; cl; cl; cl; cl; cl; MWorker 1; cl; cl; MWorker 1; cl; cl; cl; cl; MDel 0] quietb) as (s & Hs & H%quietb_ok); [by vm_compute|]. by exists s.
Qed.

(** * C62: a changed number of store shards *)
(** A copy outside the shard of its id survives every update and every removal, and is
    recovered by every restart ... *)
Theorem C62_stale_copy_is_recovered_for_ever accepts encode murmur n dbs iter decode progs s rs id j v d : 1 <= n < 2^32 →
  valid_iter iter → store_reach accepts encode murmur n progs s →
  restart iter decode n (dbAfter murmur n dbs (ssLog s)) rs →
  0 <= j < n → storeShard murmur n id ≠ j → dbs j !! id = Some v → decode v = (d, false) →
  (id, d) ∈ rs.
Proof. exact (stale_copy_lem accepts encode murmur n dbs iter decode progs s rs id j v d). Qed.
Print Assumptions C62_stale_copy_is_recovered_for_ever.
(** ... beside the current one ... *)
Theorem C62_two_versions_are_recovered accepts encode murmur n dbs iter decode cs s rs id j v d d' : 1 <= n < 2^32 →
  valid_iter iter → round_trip encode decode → store_reach accepts encode murmur n [cs] s → store_quiet s →
  restart iter decode n (dbAfter murmur n dbs (ssLog s)) rs →
  0 <= j < n → storeShard murmur n id ≠ j → dbs j !! id = Some v → decode v = (d, false) →
  id ≠ "0" → SRemove id ∉ cs → last_data cs id d' → (∀ d', SIndex id d' ∈ cs → ∃ v, writable accepts encode id d' v) →
  ∃ p1 p2, p1 ≠ p2 ∧ rs !! p1 = Some (id, d) ∧ rs !! p2 = Some (id, d').
Proof. exact (two_copies_lem accepts encode murmur n dbs iter decode cs s rs id j v d d'). Qed.
Print Assumptions C62_two_versions_are_recovered.
(** ... and what is only in files above the new number is not recovered. *)
Theorem C62_dropped_shards_are_not_read n dbs iter decode rs id d : valid_iter iter →
  restart iter decode n dbs rs → (∀ j, 0 <= j < n → dbs j !! id = None) → (id, d) ∉ rs.
Proof. exact (lost_shard_lem n dbs iter decode rs id d). Qed.
Print Assumptions C62_dropped_shards_are_not_read.
(** HasDocDB looks only into the shard of the id. *)
Theorem C62_hasdocdb_misses_stale_copies murmur n e dbs id : HasDocDB murmur n e dbs id = true →
  is_Some (dbs (storeShard murmur n id) !! id).
Proof. unfold HasDocDB. intros H. apply (Has_spec (λ _ _, true)) in H. destruct e; [done|done|]. destruct H as (v & Hv & _). by exists v. Qed.
Print Assumptions C62_hasdocdb_misses_stale_copies.

(** Written with two shards ("a" in shard 1), opened with three ("aaa" in shard 0, "aaaa" in
    shard 1 instead of 0), updated *)
Definition dbs2 : Z → kv := λ j, if j =? 0 then {["aaaa" := "old"]} else if j =? 1 then {["aaa" := "old3"]} else ∅.
Example C62_case : placed hashLen 2 dbs2 ∧ storeShard hashLen 3 "aaaa" = 1 ∧
  (∃ s, store_reach accT encB hashLen 3 [[SIndex "aaaa" (txt "new")]] s ∧ store_quiet s ∧
     restart map_to_list decT 3 (dbAfter hashLen 3 dbs2 (ssLog s)) [("aaaa", txt "old"); ("aaa", txt "old3"); ("aaaa", txt "new")]).
Proof.
  split; [|split; [done|]].
  - intros j id Hj [v Hv]. unfold dbs2 in Hv. destruct (Z.eqb_spec j 0) as [->|].
    + apply lookup_singleton_Some in Hv as [<- _]. done.
    + destruct (Z.eqb_spec j 1) as [->|]; [|lia]. apply lookup_singleton_Some in Hv as [<- _]. done.
  - destruct (store_check_ok hashLen 3 [[SIndex "aaaa" (txt "new")]] [cl; cl; cl; MWorker 1; MWorker 1]
      (λ s, quietb s && bool_decide ((λ j, storeInit map_to_list decT (dbAfter hashLen 3 dbs2 (ssLog s) j)) <$> seqZ 0 3 =
        [[("aaaa", txt "old")]; [("aaa", txt "old3"); ("aaaa", txt "new")]; []]))) as (s & Hs & H); [by vm_compute|].
    rewrite andb_true_iff, bool_decide_eq_true in H. destruct H as [H1%quietb_ok H2]. exists s.
    repeat (split; [done|]). unfold restart. rewrite H2. apply (merges_total [[("aaaa", txt "old")]; [("aaa", txt "old3"); ("aaaa", txt "new")]; []]).
Qed.

(** * C63: recovered documents wait *)
(** Start with a store that holds fewer documents than the cache size: at no moment, however
    long one waits, does any indexer show or find any of them (until some forced call). *)
Theorem C63_recovered_documents_are_not_found murmur n only reqsFirst capc iter decode X stop o sortDocs io s0 nseg nS dbs progs s i log2 :
  valid_range X → 1 <= n < 2^32 → valid_sort sortDocs → Init io = Some s0 →
  recoverProgs iter decode X stop o nS dbs = Some progs →
  zlen (mjoin progs) < DocCacheSize (initOptions s0) →
  pipe_reach murmur n only reqsFirst capc nseg progs s → 0 <= i < n →
  ∃ x, run sortDocs (ixCalls i (sLog s)) s0 = Some x ∧ ∀ id, HasDoc x id = false ∧ not_found log2 x id.
Proof. intros HX Hn. exact (recovered_wait_lem murmur n only reqsFirst capc iter decode X stop o HX Hn sortDocs io s0 nseg nS dbs progs s i log2). Qed.
Print Assumptions C63_recovered_documents_are_not_found.

(** * C64: after the next flush exactly the stored documents are there *)
(** All goroutines of the recovery have finished, then a flush of the cache: every shard
    shows exactly the stored documents, segmented again, that hash to it. *)
Theorem C64_stored_documents_are_shown_after_flush murmur n only reqsFirst capc iter decode X stop o sortDocs io s0 nseg nS dbs progs s i :
  valid_iter iter → valid_range X → 1 <= n < 2^32 → valid_sort sortDocs → Init io = Some s0 →
  1 <= nS < 2^32 → placed murmur nS dbs → recoverProgs iter decode X stop o nS dbs = Some progs →
  pipe_reach murmur n only reqsFirst capc nseg progs s → quiescent s → 0 <= i < n →
  ∃ x M, run sortDocs (ixCalls i (sLog s) ++ [OpAdd None true]) s0 = Some x ∧ shows x M ∧ clean x M ∧
    ∀ id doc, M !! id = Some doc ↔
      id ≠ "0" ∧ ∃ v d, dbs (storeShard murmur nS id) !! id = Some v ∧ decode v = (d, false) ∧
        segDoc X stop o id d = Some doc ∧ u32 (murmur (String.append id (ddContent d))) `mod` n = i.
Proof.
  intros Hit HX Hn. exact (recovered_shown_lem murmur n only reqsFirst capc iter Hit decode X stop o HX Hn sortDocs io s0 nseg nS dbs progs s i).
Qed.
Print Assumptions C64_stored_documents_are_shown_after_flush.

(** Two store shards with one document each and one broken value; recovered by two
    goroutines into one index shard with a cache of 8 *)
Definition dbs3 : Z → kv := λ j, if j =? 0 then {["bb" := "cat dog"; "bbbb" := "broken"]} else {["a" := "Cat"]}.
Definition progs3 : option (list (list ecall)) := recoverProgs map_to_list decT exX ∅ noGse 2 dbs3.
Definition run3 (ks : list nat) (P : list (list ecall) → pstate → bool) : bool :=
  match progs3 with Some pg => sched_check hash0 1 true pg ks (P pg) | None => false end.
Example C64_case : placed hashLen 2 dbs3 ∧
  ∃ progs s, recoverProgs map_to_list decT exX ∅ noGse 2 dbs3 = Some progs ∧
    zlen (mjoin progs) = 2 ∧ pipe_reach hash0 1 false true cap1 1 progs s ∧ quiescent s ∧
    foundIn 0 s "cat" = Some [] ∧ is_Some (st (optsL 8) (ixCalls 0 (sLog s) ++ [OpAdd None true])).
Proof.
  split.
  - intros j id Hj [v Hv]. unfold dbs3 in Hv. destruct (Z.eqb_spec j 0) as [->|].
    + apply lookup_insert_Some in Hv as [[<- _]|[_ Hv]]; [done|]. apply lookup_singleton_Some in Hv as [<- _]. done.
    + assert (j = 1) as -> by lia. apply lookup_singleton_Some in Hv as [<- _]. done.
  - assert (H : run3 [0; 0; 0; 1; 1; 2; 2; 2; 3; 3; 3; 5; 5; 1; 2; 2; 2; 3; 3; 3; 5; 5]%nat (λ pg s, (zlen (mjoin pg) =? 2) && quiescentb s && bool_decide (foundIn 0 s "cat" = Some []) &&
      match st (optsL 8) (ixCalls 0 (sLog s) ++ [OpAdd None true]) with Some _ => true | None => false end) = true) by by vm_compute.
    unfold run3, progs3 in H. destruct (recoverProgs _ _ _ _ _ _ _) as [pg|]; [|done].
    destruct (sched_check_ok _ _ _ _ _ _ H) as (s & Hs & HP). rewrite !andb_true_iff, bool_decide_eq_true, Z.eqb_eq in HP.
    destruct HP as [[[H1 H2%quiescentb_ok] H3] H4]. exists pg, s. repeat (split; [done|]).
    by destruct (st (optsL 8) _).
Qed.
