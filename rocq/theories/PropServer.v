(** C85 – C87: the engine behind the handlers of the servers. *)
From Verif Require Import SpecNet ModelServer ModelEngine SpecIndexer SpecSearch SpecRank SpecRoute SpecPipe SpecSegment SpecEngine SpecFlight SpecStore SpecEnd
  SpecLife SpecClose SpecWhole SpecServer ProofNet ProofHandlers ProofServerStore ProofHttp ProofFlushThms ProofIxThms ProofSortBy ExampleTools PropIndexer PropPipe PropStore PropSegment PropEnd PropLife PropWhole.
From Verif Require PropEngine.

(** * C85: documents added through the servers are not stored *)

(** Whatever the clients of the HTTP and gRPC servers ask for, in whatever order it is
    carried out: no document gets into the database files. *)
Theorem C85_nothing_is_stored murmur n only reqsFirst cap accepts encode nS reqsFirst2 box unmarshal X stop o registered nseg progs s dbs j :
  gob_rule registered encode → attri_unknown registered box →
  whole_reach murmur n only reqsFirst cap accepts encode nS reqsFirst2 nseg progs s →
  Forall (from_server box unmarshal X stop o) (mjoin progs) →
  dbAfter murmur nS dbs (wSLog s) j ⊆ dbs j.
Proof. exact (servers_store_nothing murmur n only reqsFirst cap accepts encode nS reqsFirst2 box unmarshal X stop o registered nseg progs s dbs j). Qed.
Print Assumptions C85_nothing_is_stored.
(** Yet numDocsStored counts every document, stored or not, so that Flush goes through. *)
Theorem C85_all_count_as_stored murmur n only reqsFirst cap accepts encode nS reqsFirst2 nseg progs s :
  whole_reach murmur n only reqsFirst cap accepts encode nS reqsFirst2 nseg progs s → at_rest s →
  numStored (wSLog s) = zlen (filter (λ c, index_call c = true) (mjoin progs)).
Proof. exact (all_count_stored murmur n only reqsFirst cap accepts encode nS reqsFirst2 nseg progs s). Qed.
Print Assumptions C85_all_count_as_stored.
(** After a restart, nothing is found. *)
Theorem C85_a_restart_loses_everything murmur n only reqsFirst cap accepts encode nS reqsFirst2 box unmarshal X stop o registered iter decode
    sortDocs sortBy io s0 nseg progs s nseg2 progs2 s2 shards log2 req order :
  1 <= n < 2^32 → valid_iter iter → valid_sort sortDocs → valid_sortBy sortBy → Init io = Some s0 →
  gob_rule registered encode → attri_unknown registered box →
  whole_reach murmur n only reqsFirst cap accepts encode nS reqsFirst2 nseg progs s →
  Forall (from_server box unmarshal X stop o) (mjoin progs) →
  recoverProgs iter decode X stop o nS (dbAfter murmur nS (λ _, ∅) (wSLog s)) = Some progs2 →
  pipe_reach murmur n only reqsFirst cap nseg2 (progs2 ++ [[EFlush]]) s2 → quiescent s2 →
  engine_shards sortDocs s0 only n s2 shards →
  plain_request io req → scores_numbers log2 req shards → all_arrive (length shards) order →
  Search log2 sortBy req shards order = Some (nothing_found req).
Proof.
  intros Hn Hit Hv Hvb HI Hg Ha Hr Hf. eapply (restart_finds_nothing murmur n only reqsFirst cap nS X stop o iter decode Hn Hit sortDocs sortBy io s0 nseg2
    (dbAfter murmur nS (λ _, ∅) (wSLog s)) progs2 s2 shards log2 req order); [done..|].
  intros j. pose proof (servers_store_nothing murmur n only reqsFirst cap accepts encode nS reqsFirst2 box unmarshal X stop o registered nseg progs s (λ _, ∅) j Hg Ha Hr Hf) as Hs.
  apply map_eq. intros k. rewrite lookup_empty. destruct (dbAfter murmur nS (λ _, ∅) (wSLog s) j !! k) as [v|] eqn:E; [|done].
  exfalso. eapply lookup_weaken in E; [|exact Hs]. by rewrite lookup_empty in E.
Qed.
Print Assumptions C85_a_restart_loses_everything.

(** The gRPC server drops the labels of a document: whatever labels are sent, the engine is
    asked for the same, and the data it gets have none. *)
Theorem C70_labels_are_ignored box unmarshal id content attri tokens labels labels' force :
  DocInx box unmarshal (mkDocReq id content attri tokens labels force) = DocInx box unmarshal (mkDocReq id content attri tokens labels' force) ∧
  ∃ data, DocInx box unmarshal (mkDocReq id content attri tokens labels force) = SrvIndex id data force ∧
    ddContent data = content ∧ ddLabels data = [] ∧ ddFields data = INil ∧
    ddTokens data = (λ t, mkTok t.1 t.2) <$> tokens.
Proof. split; [reflexivity|]. eexists. repeat split. Qed.
Print Assumptions C70_labels_are_ignored.

(** "a" comes in over HTTP, "bb" over gRPC (forced); both are found, counted as stored, and
    not in the files. *)
Definition boxT (a : Attri) : Iface := IOther 5.
Definition noType (x : Iface) : bool := false.
Definition unmT (s : string) : string * Z := ("", 0).
Definition postA : httpReq := mkHttp true [] [("query", "Cat"); ("docid", "a")].
Definition grpcB : DocReq := mkDocReq "bb" "cat dog" "" [] ["L"] true.
Definition srvW (c : srvCall) : wcall := match srvWcall exX ∅ noGse c with Some w => w | None => WFlush end.
Definition srvProg : list wcall := [srvW (AddIndex boxT "now" 7 postA); srvW (DocInx boxT unmT grpcB); WFlush].
Definition srvState rf rf2 : wstate := wRun hashLen 2 rf rf2 2 wOrder 400 (wholeInit 2 2 1 [srvProg]).
Lemma boxT_unknown : attri_unknown noType boxT.
Proof. by intros a. Qed.
Lemma encB_rule : gob_rule noType encB.
Proof.
  intros [c a t l f] v. unfold encB, encT. destruct a; try done. destruct t; try done. destruct l; try done. destruct f; try done. intros _. by split; left.
Qed.
Lemma srvProg_server : Forall (from_server boxT unmT exX ∅ noGse) (mjoin [srvProg]).
Proof.
  cbn [mjoin list_join app]. rewrite app_nil_r. unfold srvProg. apply Forall_cons. split.
  { right. left. left. exists "now", 7, postA. by vm_compute. }
  apply Forall_cons. split.
  { right. right. exists grpcB. by vm_compute. }
  apply Forall_singleton. by left.
Qed.
Definition srvCheck (s : wstate) : bool :=
  wreturnedb s && pipe_restb s && store_restb s &&
  bool_decide (lifeSearch "cat" (pipePart s) = Some (Some [("a", "Cat"); ("bb", "cat dog")], 2)) &&
  bool_decide (dbAfter hashLen 2 noDbs (wSLog s) 0 = ∅ ∧ dbAfter hashLen 2 noDbs (wSLog s) 1 = ∅) &&
  bool_decide (numStored (wSLog s) = 2).
Example C85_case rf rf2 : gob_rule noType encB ∧ attri_unknown noType boxT ∧
  whole_reach hashLen 2 false rf cap1 accT encB 2 rf2 1 [srvProg] (srvState rf rf2) ∧
  Forall (from_server boxT unmT exX ∅ noGse) (mjoin [srvProg]) ∧ srvCheck (srvState rf rf2) = true.
Proof.
  split; [exact encB_rule|]. split; [exact boxT_unknown|]. split; [unfold whole_reach, srvState; apply wRun_reach|]. split; [exact srvProg_server|].
  destruct rf, rf2; by vm_compute.
Qed.

(** * C86: the parameters of HTTP requests *)

(** Numbers are taken as the nearest 64-bit ones ... *)
Theorem C86_numbers s z : numeral s z → Atoi s = nearest_int z.
Proof. exact (atoi_numeral s z). Qed.
Print Assumptions C86_numbers.
(** ... and anything else as 0, unless it starts with a number of 2^64 or more. *)
Theorem C86_other_text s : (∀ z, ¬ numeral s z) →
  Atoi s = 0 ∨ ∃ t u z, s = String.append t u ∧ numeral t z ∧ 2^64 <= Z.abs z ∧ Atoi s = nearest_int z.
Proof. exact (atoi_other s). Qed.
Print Assumptions C86_other_text.
(** So a search whose outputOffset and maxOutputs are these numbers kills a worker of the
    engine exactly if something matches and the sum is negative, in 64 bits. *)
Theorem C86_deadly_requests log2 sortBy score toks ids logic shards parts cf r zo zm :
  valid_sortBy sortBy → Forall2 (shard_view log2 false (comReq score toks logic ids 0 0)) shards parts →
  numeral (form "outputOffset" r) zo → numeral (form "maxOutputs" r) zm → zm ≠ 0 →
  let page := pageOf cf (Atoi (form "outputOffset" r)) (Atoi (form "maxOutputs" r)) in
  workerDies log2 sortBy (comReq score toks logic ids page.1 page.2) shards ↔
  Exists (λ p, p.2 ≠ []) parts ∧
    (- 2^63 <= nearest_int zo + nearest_int zm < 0 ∨ 2^63 <= nearest_int zo + nearest_int zm).
Proof.
  intros Hv Hf Ho Hm Hz. cbv zeta. rewrite (atoi_numeral _ _ Ho), (atoi_numeral _ _ Hm).
  assert (Hne : nearest_int zm ≠ 0) by (unfold nearest_int; lia).
  rewrite (http_dies_lem log2 sortBy score toks ids logic shards parts cf _ _ (nearest_int zo) (nearest_int zm) Hv Hf).
  - tauto.
  - right. done.
  - unfold nearest_int. lia.
  - unfold nearest_int. lia.
Qed.
Print Assumptions C86_deadly_requests.

(** A document whose id was posted in a form is not deleted by posting the same form to
    DelIndex: a search still finds it. *)
Theorem C86_posted_delete_deletes_nothing murmur n only reqsFirst cap box X stop so sortDocs sortBy io s0 nseg time ts r id doc d c s shards log2 req order :
  1 <= n < 2^32 → valid_range X → valid_sort sortDocs → valid_sortBy sortBy → Init io = Some s0 →
  hrPost r = true → head (values "docid" (hrBody r)) = Some id → values "docid" (hrUrl r) = [] → id ≠ "" → id ≠ "0" →
  srvWcall X stop so (AddIndex box time ts r) = Some (WIndex doc d false) → srvWcall X stop so (DelIndex r) = Some c →
  pipe_reach murmur n only reqsFirst cap nseg [program [[pipeCall (WIndex doc d false); pipeCall c]]] s → quiescent s →
  engine_shards sortDocs s0 only n s shards → plain_request io req → scores_numbers log2 req shards →
  all_arrive (length shards) order → wanted req doc → score_accepts (ScoringCriteria (rqOpts req)) id (ddFields d) →
  ∃ full out, Search log2 sortBy req shards order = Some (mkResp (rqTokens req) false (zlen full) (Some out)) ∧ sdDocId <$> full = [id] ∧
    DocId doc = id.
Proof.
  intros Hn HX Hv Hvb HI Hp Hb Hu H1 H0 Ha [= <-] Hr.
  exact (posted_delete murmur n only reqsFirst cap box X stop so Hn HX sortDocs sortBy io s0 nseg time ts r id doc d s shards log2 req order
    Hv Hvb HI Hp Hb Hu H1 H0 Ha Hr).
Qed.
Print Assumptions C86_posted_delete_deletes_nothing.
(** With the id in the URL it is deleted. *)
Theorem C86_url_delete_deletes murmur n only reqsFirst cap box X stop so sortDocs io s0 nseg time ts r r2 id doc d c s i :
  1 <= n < 2^32 → valid_range X → valid_sort sortDocs → Init io = Some s0 →
  form "docid" r = id → head (values "docid" (hrUrl r2)) = Some id → id ≠ "0" →
  srvWcall X stop so (AddIndex box time ts r) = Some (WIndex doc d false) →
  srvWcall X stop so (DelIndex r2) = Some c →
  pipe_reach murmur n only reqsFirst cap nseg [program [[pipeCall (WIndex doc d false)]; [pipeCall c]]] s → returned 0 s →
  0 <= i < n → ∃ ix, run sortDocs (ixCalls i (sLog s)) s0 = Some ix ∧ ∀ id', HasDoc ix id' = false.
Proof.
  intros Hn HX Hv HI Hf Hu H0 Ha [= <-] Hr.
  exact (url_delete murmur n only reqsFirst cap box X stop so Hn HX sortDocs io s0 nseg time ts r r2 id doc d s i Hv HI Hf Hu H0 Ha Hr).
Qed.
Print Assumptions C86_url_delete_deletes.

Example C86_numbers_case : numeral "-007" (-7) ∧ Atoi "-007" = -7 ∧ numeral "99999999999999999999" 99999999999999999999 ∧
  Atoi "99999999999999999999" = 2^63 - 1 ∧ Atoi "12a" = 0 ∧ Atoi "" = 0 ∧ Atoi "99999999999999999999a" = 2^63 - 1.
Proof.
  split. { exists [0; 0; 7]%nat. split; [done|]. split; [repeat (constructor; [lia|]); constructor|]. right. right. done. }
  split; [by vm_compute|].
  split. { exists (replicate 20 9%nat). split; [done|]. split; [by apply Forall_replicate; lia|]. left. done. }
  repeat (split; [by vm_compute|]). by vm_compute.
Qed.
(** "outputOffset=1&maxOutputs=9223372036854775807" for an indexed word *)
Example C86_deadly_case : let r := mkHttp false [("query", "x"); ("outputOffset", "1"); ("maxOutputs", "9223372036854775807")] [] in
  ∃ shs, PropEngine.exShards = Some shs ∧
  Forall2 (shard_view (λ x, x) false (comReq PropEngine.numScore ["x"] noLogic None 0 0)) shs PropEngine.exParts ∧
  numeral (form "outputOffset" r) 1 ∧ numeral (form "maxOutputs" r) (2^63 - 1) ∧ Exists (λ p, p.2 ≠ []) PropEngine.exParts.
Proof.
  cbv zeta. destruct (PropEngine.ex_views 0 0 false 0) as (shs & H1 & H2 & H3 & H4). exists shs. split; [done|]. split; [exact H3|].
  split. { exists [1]%nat. split; [done|]. split; [by apply Forall_singleton; lia|]. by left. }
  split; [|exact H4].
  exists [9;2;2;3;3;7;2;0;3;6;8;5;4;7;7;5;8;0;7]%nat. split; [done|]. split; [repeat (constructor; [lia|]); constructor|]. by left.
Qed.
(** The form of [postA], posted to both handlers, then Flush, and a search for "cat" *)
Definition delState rf : pstate :=
  pRun hashLen 2 rf (rev (seq 1 9) ++ [0]%nat) 400
    (pipeInit 2 1 [program [[pipeCall (srvW (AddIndex boxT "now" 7 postA)); pipeCall (srvW (DelIndex postA))]]]).
Example C86_posted_case rf : pipe_reach hashLen 2 false rf PropPipe.cap1 1
    [program [[pipeCall (srvW (AddIndex boxT "now" 7 postA)); pipeCall (srvW (DelIndex postA))]]] (delState rf) ∧
  quiescentb (delState rf) = true ∧ lifeSearch "cat" (delState rf) = Some (Some [("a", "Cat")], 1) ∧
  srvW (DelIndex postA) = WRemove "" false ∧ srvW (DelIndex (mkHttp false [("docid", "a")] [])) = WRemove "a" false.
Proof. split; [unfold pipe_reach, delState; apply pRun_reach|]. destruct rf; repeat (split; [by vm_compute|]); by vm_compute. Qed.

(** * C87: over HTTP nothing is forced *)

(** Nothing is found before DocCacheSize documents have been added. *)
Theorem C87_documents_wait murmur n only reqsFirst cap box X stop so sortDocs sortBy io s0 nseg progs s shards log2 req order :
  1 <= n < 2^32 → valid_range X → valid_sort sortDocs → valid_sortBy sortBy → Init io = Some s0 →
  pipe_reach murmur n only reqsFirst cap nseg (pipeProg <$> progs) s → Forall (http_write box X stop so) (mjoin progs) →
  zlen (filter (λ c, index_call c = true) (mjoin progs)) < DocCacheSize (initOptions s0) →
  engine_shards sortDocs s0 only n s shards → plain_request io req → all_arrive (length shards) order →
  Search log2 sortBy req shards order = Some (nothing_found req).
Proof. intros Hn HX. exact (http_waits murmur n only reqsFirst cap box X stop so Hn HX sortDocs sortBy io s0 nseg progs s shards log2 req order). Qed.
Print Assumptions C87_documents_wait.
(** A cache that fills up with updates of indexed documents stays full if an id occurs
    twice in it, and the next add panics. *)
Theorem C87_updates_fill_the_cache sortDocs o ops s docs : reach sortDocs o ops s → addCache s = [] → removeCache s = [] →
  Forall good_doc docs → zlen docs = DocCacheSize (initOptions s) →
  (∀ d, d ∈ docs → HasDoc s (DocId d) = true) → ¬ NoDup (DocId <$> docs) →
  ∃ s', run sortDocs ((λ d, OpAdd (Some d) false) <$> docs) s = Some s' ∧ next_add_crashes sortDocs s'.
Proof. exact (crash_updates sortDocs o ops s docs). Qed.
Print Assumptions C87_updates_fill_the_cache.
(** So it is enough to post one document over and over, whatever the number of clients and
    segmenters: the indexer of its shard panics on the way. *)
Theorem C87_one_form_kills_the_server murmur n only reqsFirst cap box X stop so sortDocs io s0 nseg progs s r :
  1 <= n < 2^32 → valid_range X → valid_sort sortDocs → Init io = Some s0 → 2 <= DocCacheSize (initOptions s0) →
  form "docid" r ≠ "0" →
  Forall (λ c, ∃ time ts, srvWcall X stop so (AddIndex box time ts r) = Some c) (mjoin progs) →
  2 * DocCacheSize (initOptions s0) < zlen (mjoin progs) →
  pipe_reach murmur n only reqsFirst cap nseg (pipeProg <$> progs) s → quiescent s →
  run sortDocs (ixCalls (u32 (murmur (String.append (form "docid" r) (form "query" r))) `mod` n) (sLog s)) s0 = None.
Proof.
  intros Hn HX Hv HI H2 H0 Hall. eapply (http_crash murmur n only reqsFirst cap Hn); try done.
  eapply Forall_impl; [exact Hall|]. intros c (time & ts & Hc). destruct (add_inv box X stop so HX _ _ _ _ Hc) as (doc & d & -> & Hg & Hid & Hct & _). eauto 10.
Qed.
Print Assumptions C87_one_form_kills_the_server.

(** Two indexers with caches for two documents each; the two clients have posted five
    times and once, respectively. *)
Definition postB : httpReq := mkHttp true [] [("query", "cat"); ("docid", "bb")].
Definition crashProgs : list (list wcall) :=
  [(λ ts, srvW (AddIndex boxT "now" ts postA)) <$> [1; 2; 3]; (λ ts, srvW (AddIndex boxT "then" ts postA)) <$> [4; 5]].
Definition crashState rf : pstate := pRun hashLen 2 rf (rev (seq 2 9) ++ [0; 1]%nat) 400 (pipeInit 2 1 (pipeProg <$> crashProgs)).
Definition waitProgs : list (list wcall) := [[srvW (AddIndex boxT "now" 7 postB)]; [srvW (DelIndex postB)]].
Definition waitState rf : pstate := pRun hashLen 2 rf (rev (seq 2 9) ++ [0; 1]%nat) 400 (pipeInit 2 1 (pipeProg <$> waitProgs)).
Example C87_case rf : ∃ s0, Init (optsF 2) = Some s0 ∧ DocCacheSize (initOptions s0) = 2 ∧
  Forall (λ c, ∃ time ts, srvWcall exX ∅ noGse (AddIndex boxT time ts postA) = Some c) (mjoin crashProgs) ∧
  pipe_reach hashLen 2 false rf PropPipe.cap1 1 (pipeProg <$> crashProgs) (crashState rf) ∧ quiescentb (crashState rf) = true ∧
  run stableSort (ixCalls 0 (sLog (crashState rf))) s0 = None ∧
  zlen (filter (λ c, index_call c = true) (mjoin waitProgs)) = 1 ∧ Forall (http_write boxT exX ∅ noGse) (mjoin waitProgs) ∧
  pipe_reach hashLen 2 false rf PropPipe.cap1 1 (pipeProg <$> waitProgs) (waitState rf) ∧ quiescentb (waitState rf) = true ∧
  length (endShards (waitState rf)) = 2%nat ∧ lifeSearch "cat" (waitState rf) = Some (Some [], 0).
Proof.
  eexists. split; [reflexivity|]. split; [by vm_compute|].
  split. { repeat (constructor; [first [exists "now", 1|exists "then", 4]; by vm_compute|]). constructor. }
  split; [unfold pipe_reach, crashState; apply pRun_reach|].
  split; [destruct rf; vm_compute; reflexivity|]. split; [destruct rf; vm_compute; reflexivity|]. split; [vm_compute; reflexivity|].
  split. { constructor; [left; exists "now", 7, postB; by vm_compute|]. constructor; [right; exists postB; by vm_compute|constructor]. }
  split; [unfold pipe_reach, waitState; apply pRun_reach|]. destruct rf; repeat (split; [by vm_compute|]); by vm_compute.
Qed.
