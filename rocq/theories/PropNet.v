(** C53, C68, C70, C71: the servers. *)
From stdpp Require Import pretty.
From Verif Require Import ModelNet SpecRank SpecEngine SpecNet ProofNet.
From Verif Require ModelStart SpecStart ProofServer ProofSortBy PropEngine.

(** * C53: distributed search *)

(** The answers of several hosts (or of none) become one list, newest first.  It is
    complete if it fits the limit; otherwise one document less than the limit is sent;
    a limit of 0 or less with more documents than that crashes. *)
Theorem C53_merge : ∀ sortTexts max replies, valid_sortBy sortTexts → length replies ≠ 1%nat →
  ∃ all, all ≡ₚ mjoin replies ∧ newest_first all ∧
    (zlen (mjoin replies) <= max → distMerge sortTexts max replies = Some all) ∧
    (1 <= max < zlen (mjoin replies) →
       distMerge sortTexts max replies = Some (take (Z.to_nat (max - 1)) all)) ∧
    (max < zlen (mjoin replies) → max <= 0 → distMerge sortTexts max replies = None).
Proof. exact merge_lem. Qed.
Print Assumptions C53_merge.

Definition txt (id : string) (ts : Z) : Text := mkText id "" [] (mkAttri "" "" "" ts).
(** insertion sort, as one possible sort.Sort *)
Fixpoint ins (less : Text → Text → bool) (x : Text) (l : list Text) : list Text :=
  match l with [] => [x] | y :: l' => if less y x then y :: ins less x l' else x :: l end.
Definition insSort (less : Text → Text → bool) (l : list Text) : list Text := foldr (ins less) [] l.

(** "The limit asked for is used": not by the distributed search. *)
Theorem C53_limit_is_met_refuted : ∀ sortTexts, valid_sortBy sortTexts →
  ∃ max replies out, 0 < max ∧ max < zlen (mjoin replies) ∧
    distMerge sortTexts max replies = Some out ∧ zlen out < max.
Proof.
  intros sortTexts Hv. exists 2, [[txt "a" 1; txt "b" 2]; [txt "c" 3]].
  destruct (merge_lem sortTexts 2 [[txt "a" 1; txt "b" 2]; [txt "c" 3]] Hv ltac:(done)) as (all & H1 & _ & _ & H2 & _).
  exists (take 1 all). split; [done|]. split; [done|]. split; [by apply H2|].
  unfold zlen. rewrite take_length. lia.
Qed.
Print Assumptions C53_limit_is_met_refuted.

(** The answer of a single host is passed on as it is. *)
Theorem C53_one_host : ∀ sortTexts max r, distMerge sortTexts max [r] = Some r.
Proof. exact one_host. Qed.
Print Assumptions C53_one_host.

(** The first request to a fresh process, if it gives no limit and two or more hosts
    answer with some document, crashes, whatever the configuration says. *)
Theorem C53_first_request_crashes : ∀ sortTexts com (hosts : Z → Z → list (list Text)) reqs off,
  valid_sortBy sortTexts → (1 < length (hosts 0%Z 0%Z))%nat → mjoin (hosts 0%Z 0%Z) ≠ [] →
  wgDistRun sortTexts com zeroConf hosts ((off, 0) :: reqs) =
    None :: wgDistRun sortTexts com com hosts reqs.
Proof. exact first_lem. Qed.
Print Assumptions C53_first_request_crashes.

(** Every later request uses the offset and limit given or, without a limit, those of
    the configuration. *)
Theorem C53_later_requests : ∀ sortTexts com pkg hosts reqs1 off max off' max',
  in_force com off max off' max' → reqs1 ≠ [] →
  wgDistRun sortTexts com pkg hosts (reqs1 ++ [(off, max)]) !! length reqs1 =
    Some (distMerge sortTexts max' (hosts off' max')).
Proof. exact dist_later. Qed.
Print Assumptions C53_later_requests.

(** The offset is applied by every host for itself: once no single host has more
    documents than the offset, the answer is empty, however many they have together. *)
Theorem C53_offset_is_per_host : ∀ sortTexts (docs : list (list Text)) off max,
  valid_sortBy sortTexts → 0 < max → Forall (λ l, zlen l <= off) docs →
  distMerge sortTexts max (page off max <$> docs) = Some [].
Proof. exact offset_lem. Qed.
Print Assumptions C53_offset_is_per_host.
Theorem C53_pages_reach_everything_refuted : ∀ sortTexts, valid_sortBy sortTexts →
  ∃ docs off max, 0 <= off < zlen (mjoin docs) ∧ 0 < max ∧
    distMerge sortTexts max (page off max <$> docs) = Some [].
Proof.
  intros sortTexts Hv. exists [[txt "a" 1]; [txt "b" 2]; [txt "c" 3]], 1, 10.
  split; [done|]. split; [done|]. apply offset_lem; [done|done|]. repeat constructor; done.
Qed.
Print Assumptions C53_pages_reach_everything_refuted.

Example C53_case :
  distMerge insSort 5 [[txt "a" 1; txt "d" 9]; []; [txt "b" 2; txt "c" 2]] =
    Some [txt "d" 9; txt "c" 2; txt "b" 2; txt "a" 1] ∧
  distMerge insSort 3 [[txt "a" 1; txt "d" 9]; []; [txt "b" 2; txt "c" 2]] = Some [txt "d" 9; txt "c" 2] ∧
  distMerge insSort 0 [[txt "a" 1]; []] = None ∧ distMerge insSort 0 [[]; []] = Some [] ∧
  distMerge insSort 1 [[txt "a" 1; txt "d" 9]] = Some [txt "a" 1; txt "d" 9] ∧
  wgDistRun insSort (mkNetConf 0 3) zeroConf (λ _ _, [[txt "a" 1]; [txt "b" 2]]) [(0, 0); (0, 0); (0, 2)] =
    [None; Some [txt "b" 2; txt "a" 1]; Some [txt "b" 2; txt "a" 1]].
Proof. by vm_compute. Qed.

(** * C68: one server *)

(** The answer to an HTTP search is the page (offset and limit in force) of the hits in
    order of score, up to ties, shown newest first; but if the limit in force is 0,
    which means "no limit" to the engine, the answer is empty. *)
Theorem C68_http_answer : ∀ log2 sortBy asAttri sortTexts score toks ids shards parts order cf off max off' max',
  valid_sortBy sortBy → valid_sortBy sortTexts → no_nan (all_hits false score parts) →
  Forall2 (shard_view log2 false (comReq score toks noLogic ids 0 0)) shards parts →
  all_arrive (length shards) order → in_force cf off max off' max' →
  0 <= off' → 0 <= max' → off' + max' < 2^63 →
  Forall (λ d, is_Some (asAttri (sdAttri d))) (all_hits false score parts) →
  ∃ full shown ts out,
    full ≡ₚ all_hits false score parts ∧ in_order false full ∧
    Forall2 same_scores shown (page off' max' full) ∧ shown ⊆+ full ∧
    Forall2 (shows asAttri false) shown ts ∧
    httpSearch asAttri sortTexts cf (engineFor log2 sortBy score toks ids shards order noLogic) off max = Some out ∧
    newest_first out ∧ (max' = 0 → out = []) ∧ (max' ≠ 0 → out ≡ₚ ts).
Proof. exact http_lem. Qed.
Print Assumptions C68_http_answer.

(** The same for gRPC; scores, titles and authors are not sent. *)
Theorem C68_grpc_answer : ∀ log2 sortBy asAttri sortTexts score toks ids shards parts order cf off max off' max' m s n em es en,
  let logic := mkLogic m s n em es en in
  valid_sortBy sortBy → valid_sortBy sortTexts → no_nan (all_hits false score parts) →
  Forall2 (shard_view log2 false (comReq score toks logic ids 0 0)) shards parts →
  all_arrive (length shards) order → in_force cf off max off' max' →
  0 <= off' → 0 <= max' → off' + max' < 2^63 →
  Forall (λ d, is_Some (asAttri (sdAttri d))) (all_hits false score parts) →
  ∃ full shown ts out,
    full ≡ₚ all_hits false score parts ∧ in_order false full ∧
    Forall2 same_scores shown (page off' max' full) ∧ shown ⊆+ full ∧
    Forall2 (shows asAttri true) shown ts ∧
    grpcSearch asAttri sortTexts cf (engineFor log2 sortBy score toks ids shards order)
      (Some (m, s, n, Some (em, es, en))) off max = Some out ∧
    newest_first out ∧ (max' = 0 → out = []) ∧ (max' ≠ 0 → out ≡ₚ ts).
Proof. exact grpc_lem. Qed.
Print Assumptions C68_grpc_answer.

(** The handler crashes exactly if the engine does, if there is no document list, if
    some document on the page was indexed with attributes of another type (or none),
    or if the limit is negative. *)
Theorem C68_http_crashes_iff : ∀ asAttri sortTexts cf engine off max off' max',
  valid_sortBy sortTexts → in_force cf off max off' max' →
  httpSearch asAttri sortTexts cf engine off max = None ↔
  match engine off' max' with
  | None => True
  | Some resp =>
    match rsDocs resp with
    | None => True
    | Some ds => Exists (λ d, asAttri (sdAttri d) = None) ds ∨ max' < 0
    end
  end.
Proof. exact crash_lem. Qed.
Print Assumptions C68_http_crashes_iff.

Definition attriOf (x : Iface) : option Attri :=
  match x with IOther n => Some (mkAttri "" "" "" n) | _ => None end.
Definition scored (id : string) (a : Iface) : ScoredDoc := mkScored id [] [] [] "" a INil.
Example C68_case :
  let engine (l : list ScoredDoc) (off max : Z) := Some (mkResp [] false 9 (Some (page off max l))) in
  let l := [scored "a" (IOther 5); scored "b" (IOther 8); scored "c" (IOther 7)] in
  option_map (map txId) (httpSearch attriOf insSort (mkNetConf 1 2) (engine l) 0 2) = Some ["b"; "a"] ∧
  option_map (map txId) (httpSearch attriOf insSort (mkNetConf 1 2) (engine l) 7 0) = Some ["b"; "c"] ∧
  httpSearch attriOf insSort zeroConf (engine l) 0 0 = Some [] ∧
  httpSearch attriOf insSort zeroConf (engine [scored "a" INil]) 0 1 = None ∧
  grpcSearch attriOf insSort zeroConf (λ _, engine l) None 0 1 = None.
Proof. by vm_compute. Qed.

(** The three shards of PropEngine.v; offset 1 and limit 2 from the configuration. *)
Definition anyAttri (x : Iface) : option Attri := Some (mkAttri "" "" "" 7).
Example C68_shards_case : ∃ shs, PropEngine.exShards = Some shs ∧
  Forall2 (shard_view (λ x, x) false (comReq PropEngine.numScore ["x"] noLogic None 0 0)) shs PropEngine.exParts ∧
  in_force (mkNetConf 1 2) 9 0 1 2 ∧
  Forall (λ d, is_Some (anyAttri (sdAttri d))) (all_hits false PropEngine.numScore PropEngine.exParts) ∧
  option_map (map txId) (httpSearch anyAttri insSort (mkNetConf 1 2)
    (engineFor (λ x, x) ProofSortBy.insSortBy PropEngine.numScore ["x"] None shs [Some 2%nat; Some 0%nat; Some 1%nat] noLogic) 9 0)
  = Some ["d"; "b"].
Proof.
  destruct (PropEngine.ex_views 0 0 false 0) as (shs & H1 & H2 & H3 & _). exists shs.
  split; [done|]. split; [exact H3|]. split; [unfold in_force; tauto|]. split; [apply Forall_true; intros x; by exists (mkAttri "" "" "" 7)|].
  assert (X : match PropEngine.exShards with
    | Some shs => option_map (map txId) (httpSearch anyAttri insSort (mkNetConf 1 2)
    (engineFor (λ x, x) ProofSortBy.insSortBy PropEngine.numScore ["x"] None shs [Some 2%nat; Some 0%nat; Some 1%nat] noLogic) 9 0)
    | None => None end = Some ["d"; "b"]) by by vm_compute.
  rewrite H1 in X. exact X.
Qed.

(** * C71: a client can end the process *)

(** A worker goroutine of the engine, where nothing recovers a panic, dies exactly if
    some document matches and the limit in force is not 0 and its sum with the offset,
    computed in 64 bits, is negative.  So a negative maxOutputs in a search for any
    indexed word is enough. *)
Theorem C71_worker_dies_iff : ∀ log2 sortBy score toks ids logic shards parts cf off max off' max',
  valid_sortBy sortBy → Forall2 (shard_view log2 false (comReq score toks logic ids 0 0)) shards parts →
  in_force cf off max off' max' → - 2^63 <= off' < 2^63 → - 2^63 <= max' < 2^63 →
  workerDies log2 sortBy (comReq score toks logic ids (pageOf cf off max).1 (pageOf cf off max).2) shards ↔
  Exists (λ p, p.2 ≠ []) parts ∧ max' ≠ 0 ∧ (- 2^63 <= off' + max' < 0 ∨ 2^63 <= off' + max').
Proof. exact http_dies_lem. Qed.
Print Assumptions C71_worker_dies_iff.

(** One limit of -1 for an indexed word; a query that matches nothing does no harm. *)
Example C71_case : ∃ shs, PropEngine.exShards = Some shs ∧
  workerDies (λ x, x) ProofSortBy.insSortBy (comReq PropEngine.numScore ["x"] noLogic None
    (pageOf (mkNetConf 0 10) 0 (-1)).1 (pageOf (mkNetConf 0 10) 0 (-1)).2) shs ∧
  ¬ workerDies (λ x, x) ProofSortBy.insSortBy (comReq PropEngine.numScore ["x"] noLogic None
    (pageOf (mkNetConf 0 10) 0 5).1 (pageOf (mkNetConf 0 10) 0 5).2) shs.
Proof.
  destruct (PropEngine.ex_views 0 0 false 0) as (shs & H1 & H2 & H3 & H4). exists shs. split; [done|]. split.
  - eapply (http_dies_lem _ _ _ _ _ _ shs PropEngine.exParts _ _ _ 0 (-1));
      [exact ProofSortBy.insSortBy_valid|exact H3|right; lia|lia|lia|]. split; [done|]. lia.
  - rewrite (http_dies_lem _ _ _ _ _ _ shs PropEngine.exParts _ _ _ 0 5);
      [lia|exact ProofSortBy.insSortBy_valid|exact H3|right; lia|lia|lia].
Qed.

(** * C70: the gRPC server and its clients *)

(** Whatever has been done before, a gRPC Delete ends the process: it uses a copy of
    the engine that nobody has initialised. *)
Theorem C70_grpc_delete_is_fatal : ∀ cs st,
  netRun netStart cs = ModelStart.Ok st → netStep st NGrpcDelete = ModelStart.Fatal.
Proof. exact grpc_delete. Qed.
Print Assumptions C70_grpc_delete_is_fatal.

(** What InitEngine sets up; searching, adding and deleting over HTTP work then. *)
Theorem C70_init_engine : ∀ env c st, netStep netStart (NInit env c) = ModelStart.Ok st →
  let e := nCom st in
  ModelStart.initialized e = true ∧
  ModelStart.NumShards (ModelStart.initOptions e) = SpecStart.given (ccNumShards c) 10 ∧
  0 < SpecStart.given (ccNumShards c) 10 ∧
  ModelStart.StoreShards (ModelStart.initOptions e) = SpecStart.given (ccStoreShards c) 10 ∧
  ModelStart.UseStore (ModelStart.initOptions e) = true ∧
  ModelStart.dict e = Some (ProofServer.strGiven (ccGseDict c) "../dict/dictionary.txt") ∧
  ModelStart.stopFile e = Some (ccStopTokenFile c) ∧
  ModelStart.rankers e = replicate (Z.to_nat (SpecStart.given (ccNumShards c) 10)) false ∧
  ModelStart.dbs e = (λ s, (ProofServer.strGiven (ccStoreEngine c) (ProofServer.strGiven (ModelStart.getenv env) "ldb"),
                 (ProofServer.strGiven (ccStoreFolder c) "./riot-index" +:+ "/riot." +:+ pretty s)%string))
            <$> seq 0 (Z.to_nat (SpecStart.given (ccStoreShards c) 10)) ∧
  (∃ bm, ModelStart.indexers e =
     replicate (Z.to_nat (SpecStart.given (ccNumShards c) 10)) (ModelStart.mkIx DocIdsIndex 300000 bm, 300000, 600000)) ∧
  (∀ call, call ∈ [NSearch; NAdd; NDelete] → netStep st call = ModelStart.Ok st) ∧
  (∀ env2 c2, netStep st (NInit env2 c2) = ModelStart.Fatal).
Proof. exact ProofServer.init_server. Qed.
Print Assumptions C70_init_engine.

(** All documents sent with InitGrpcc get the same, empty id, no labels and no force
    flag. *)
Theorem C70_client_drops_id : ∀ unmarshal d,
  let c := addDoc unmarshal (grpccReq d) in
  icId c = "" ∧ icContent c = gdContent d ∧ icTokens c = gdTokens d ∧ icLabels c = [] ∧ icForce c = false ∧
  atTime (icAttri c) = (unmarshal (gdAttri d)).1 ∧ atTs (icAttri c) = (unmarshal (gdAttri d)).2.
Proof. done. Qed.
Print Assumptions C70_client_drops_id.

(** A gRPC search without Logic, or without Logic.Expr, crashes. *)
Theorem C70_search_needs_logic : ∀ asAttri sortTexts cf engine logic off max,
  logic = None ∨ (∃ m s n, logic = Some (m, s, n, None)) →
  grpcSearch asAttri sortTexts cf engine logic off max = None.
Proof. exact rpc_panics_lem. Qed.
Print Assumptions C70_search_needs_logic.
Theorem C70_dist_search_needs_expr : ∀ sortTexts cf hosts m s n off max,
  egrpcSearch sortTexts cf hosts (Some (m, s, n, None)) off max = None.
Proof. exact erpc_panics_lem. Qed.
Print Assumptions C70_dist_search_needs_expr.

(** Otherwise the distributing server asks every host with the offset and limit in
    force and merges the answers as in C53; if a single host is down the process ends. *)
Theorem C70_dist_search : ∀ sortTexts cf hosts logic lg off max off' max', in_force cf off max off' max' →
  (logic = None ∧ lg = noLogic ∨ ∃ m s n em es en, logic = Some (m, s, n, Some (em, es, en)) ∧ lg = mkLogic m s n em es en) →
  - 2^31 <= off' < 2^31 → - 2^31 <= max' < 2^31 →
  (None ∈ hosts lg off' max' → egrpcSearch sortTexts cf hosts logic off max = None) ∧
  (∀ replies, hosts lg off' max' = Some <$> replies →
     egrpcSearch sortTexts cf hosts logic off max = distMerge sortTexts max' replies).
Proof. exact erpc_lem. Qed.
Print Assumptions C70_dist_search.

Definition serverEnv : ModelStart.Env :=
  ModelStart.mkEnv 2 (λ _, false) None (λ _, true) "" (λ n, if seqb n "ldb" then Some (λ _ _, true) else None).
Example C70_case :
  let c := mkComConf 0 0 "" "" 3 "" "" in
  match netStep netStart (NInit serverEnv c) with
  | ModelStart.Ok st => length (ModelStart.dbs (nCom st)) = 10%nat ∧ length (ModelStart.rankers (nCom st)) = 3%nat ∧
      netStep st NDelete = ModelStart.Ok st ∧ netStep st NGrpcDelete = ModelStart.Fatal
  | _ => False
  end ∧
  egrpcSearch insSort (mkNetConf 0 5) (λ _ _ _, [Some [txt "a" 1]; Some [txt "b" 2]]) None 0 0 = Some [txt "b" 2; txt "a" 1] ∧
  egrpcSearch insSort (mkNetConf 0 5) (λ _ _ _, [Some [txt "a" 1]; None]) None 0 0 = None.
Proof. by vm_compute. Qed.
