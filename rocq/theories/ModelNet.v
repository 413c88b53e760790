(** Executable model of the servers on top of the engine: net/com/search.go,
    net/http/http.go, net/http/search.go, net/http/dist.go, net/grpc/grpc.go,
    net/grpc/search.go, net/grpc/grpcc.go and the Search of net/grpc/etcd.go.

    Not modelled: the HTTP and gRPC transport, JSON encoding (an answer is the list of
    its documents; the fields Code, Len and Timestamp are left out; the protobuf encoding
    is in ModelWire.v and ModelWireNet.v),
    strconv.Atoi (request parameters are ints), logging.  net/rpcx holds no code. *)
From Verif Require Export ModelEngine.
From Verif Require ModelStart.

(** types/doc_index_data.go:54-59 Attri; the gRPC form has Time and Ts only. *)
Record Attri := mkAttri { atTitle : string; atAuthor : string; atTime : string; atTs : Z }.
(** net/http/search.go:22-29 Text; the gRPC form has no scores. *)
Record Text := mkText { txId : string; txContent : string; txScore : list F; txAttri : Attri }.

(** net/http/search.go:42-64 and net/grpc/search.go:44-65 Less: later timestamps
    first, then greater ids *)
Definition textLess (x y : Text) : bool :=
  if atTs (txAttri x) =? atTs (txAttri y) then sltb (txId y) (txId x)
  else atTs (txAttri x) >? atTs (txAttri y).

(** net/com/conf.go:29-46, the two fields used when answering *)
Record NetConf := mkNetConf { cfOffset : Z; cfMax : Z }.
(** com.Config{} *)
Definition zeroConf : NetConf := mkNetConf 0 0.

(** net/http/http.go:84-89, net/grpc/grpc.go:112-120, net/grpc/etcd.go:91-99: the
    offset and limit in force *)
Definition pageOf (cf : NetConf) (off max : Z) : Z * Z :=
  if max =? 0 then (cfOffset cf, cfMax cf) else (off, max).

(** net/com/search.go:114-129 Search: the request given to the engine.  [toks]: the
    query after engine.Tokens; [score]: the engine's default ranking *)
Definition comReq (score : IndexedDoc → Iface → list F) (toks : list string) (logic : Logic)
    (ids : option (gset string)) (off max : Z) : SearchReq :=
  mkReq toks [] logic ids (mkRankOpts score false off max) 0 false false.

(** int32(x) *)
Definition int32 (x : Z) : Z := (x + 2 ^ 31) mod 2 ^ 32 - 2 ^ 31.
(** net/grpc/grpcc.go:70-111 InitSearchRpc: offset and limit sent to another host *)
Definition rpcPage (off max : Z) : Z * Z := (int32 off, int32 max).

Section Net.
  (** the type assertion x.(types.Attri) *)
  Variable asAttri : Iface → option Attri.
  (** sort.Sort with a given Less *)
  Variable sortTexts : (Text → Text → bool) → list Text → list Text.

  (** net/http/http.go:103-110; [None]: the assertion panics *)
  Definition toText (d : ScoredDoc) : option Text :=
    a ← asAttri (sdAttri d); Some (mkText (sdDocId d) (sdContent d) (sdScores d) a).

  (** net/grpc/search.go:82-93: no scores, Title or Author *)
  Definition toPb (d : ScoredDoc) : option Text :=
    a ← asAttri (sdAttri d);
    Some (mkText (sdDocId d) (sdContent d) [] (mkAttri "" "" (atTime a) (atTs a))).

  (** net/http/http.go:101-116, net/grpc/search.go:81-99: from the engine's answer to
      the documents sent *)
  Definition answer (conv : ScoredDoc → option Text) (max : Z) (resp : SearchResp) : option (list Text) :=
    docs ← rsDocs resp;
    texts ← mapM conv docs;
    let sorted := sortTexts textLess texts in
    if zlen sorted >? max then zslice sorted 0 max else Some sorted.

  (** net/http/http.go:54-130 Search; [engine off max]: the engine's answer, [None] for
      a panic in the calling goroutine or in a worker *)
  Definition httpSearch (cf : NetConf) (engine : Z → Z → option SearchResp) (off max : Z)
      : option (list Text) :=
    let '(off', max') := pageOf cf off max in
    resp ← engine off' max';
    answer toText max' resp.

  (** net/grpc/grpc.go:96-136 Search.  Logic and Logic.Expr are pointers; reading a
      field through a nil one panics.  rpcSearch (net/grpc/search.go:68-109) replaces
      a limit of 0 by that of the configuration once more, which changes nothing. *)
  Definition grpcSearch (cf : NetConf) (engine : Logic → Z → Z → option SearchResp)
      (logic : option (bool * bool * bool * option (list string * list string * list string)))
      (off max : Z) : option (list Text) :=
    match logic with
    | Some (must, should, notIn, Some (em, es, en)) =>
      let '(off', max') := pageOf cf off max in
      let max'' := if max' =? 0 then cfMax cf else max' in
      resp ← engine (mkLogic must should notIn em es en) off' max';
      answer toPb max'' resp
    | _ => None
    end.

  (** net/http/dist.go:84-109, net/grpc/search.go:153-175: the answers of the hosts
      become one *)
  Definition distMerge (maxOuts : Z) (replies : list (list Text)) : option (list Text) :=
    match replies with
    | [r] => Some r
    | _ =>
      let docs := sortTexts textLess (mjoin replies) in
      if zlen docs >? maxOuts then zslice docs 0 (maxOuts - 1) else Some docs
    end.

  (** net/http/dist.go:53-115 WgDist for one request at a time.  [pkg]: the variable
      config of the package, still zero until a first request has copied com.Conf
      (line 77); [hosts off max]: the non-empty answers, in the order in which they
      are appended, to the parameters sent.  Result: the answer, and config afterwards.
      If the parameter is not 0 the offset is passed on as it came. *)
  Definition wgDist (com pkg : NetConf) (hosts : Z → Z → list (list Text)) (off max : Z)
      : option (list Text) * NetConf :=
    let '(off', max') := pageOf pkg off max in
    (distMerge max' (hosts off' max'), com).

  (** net/grpc/etcd.go:89-130 Search of the distributing server, with
      net/grpc/search.go:117-178 WgRpc and wgGrpc.  [hosts logic off max]: the answers;
      [None]: a host cannot be reached, and InitSearchRpc ends the process.  A missing
      Logic is allowed here, a missing Logic.Expr is not. *)
  Definition egrpcSearch (cf : NetConf) (hosts : Logic → Z → Z → list (option (list Text)))
      (logic : option (bool * bool * bool * option (list string * list string * list string)))
      (off max : Z) : option (list Text) :=
    lg ← (match logic with
          | None => Some (mkLogic false false false [] [] [])
          | Some (must, should, notIn, Some (em, es, en)) => Some (mkLogic must should notIn em es en)
          | Some (_, _, _, None) => None
          end);
    let '(off', max') := pageOf cf off max in
    let max'' := if max' =? 0 then cfMax cf else max' in
    replies ← mapM id (hosts lg (rpcPage off' max').1 (rpcPage off' max').2);
    distMerge max'' replies.

  (** requests one after the other on a fresh process *)
  Fixpoint wgDistRun (com pkg : NetConf) (hosts : Z → Z → list (list Text)) (reqs : list (Z * Z))
      : list (option (list Text)) :=
    match reqs with
    | [] => []
    | (off, max) :: reqs' =>
      let '(a, pkg') := wgDist com pkg hosts off max in a :: wgDistRun com pkg' hosts reqs'
    end.
End Net.

(** net/grpc/grpc.go:75-77 DelDoc uses the package variable searcher, a copy
    of com.Searcher made when the package is initialised (net/grpc/search.go:28-32);
    everything else uses com.Searcher (net/com/search.go:26-31). *)
Record NetState := mkNet { nCom : ModelStart.Eng; nGrpc : ModelStart.Eng; nHeap : ModelStart.Heap }.
Definition netStart : NetState := mkNet ModelStart.zeroEng ModelStart.zeroEng ModelStart.initHeap.

(** net/com/search.go:34-91 InitEngine: the options; [p]: the new IndexerOpts object *)
Record ComConf := mkComConf {
  ccUsing : Z; ccStoreShards : Z; ccStoreEngine : string; ccStoreFolder : string;
  ccNumShards : Z; ccGseDict : string; ccStopTokenFile : string }.
Definition comOpts (c : ComConf) (p : nat) : ModelStart.EngineOpts :=
  let path := if seqb (ccStoreFolder c) "" then "./riot-index"%string else ccStoreFolder c in
  let storageShards := if ccStoreShards c =? 0 then 10 else ccStoreShards c in
  let numShards := if ccNumShards c =? 0 then 10 else ccNumShards c in
  let dict := if seqb (ccGseDict c) "" then "../dict/dictionary.txt"%string else ccGseDict c in
  ModelStart.mkEO false (ccUsing c) dict false false (ccStopTokenFile c) false false "" 0 numShards
    0 0 0 0 (Some p) None false true path storageShards (ccStoreEngine c) false.

Inductive netCall := NInit (env : ModelStart.Env) (c : ComConf) | NSearch | NAdd | NDelete | NGrpcDelete.
Definition netStep (st : NetState) (c : netCall) : ModelStart.res NetState :=
  match c with
  | NInit env cc =>
    let h := nHeap st in
    let p := fresh (dom (ModelStart.hIx h)) in
    let h' := ModelStart.mkHeap
                (<[p := ModelStart.mkIx DocIdsIndex 0 None]> (ModelStart.hIx h))
                (ModelStart.hBM h) (ModelStart.hRk h) in
    ModelStart.rbind (ModelStart.EngInit env (nCom st) (comOpts cc p) h')
      (λ r, ModelStart.Ok (mkNet r.1 (nGrpc st) r.2))
  | NSearch => ModelStart.rbind (ModelStart.apiStart (nCom st) ModelStart.ASearch) (λ _, ModelStart.Ok st)
  | NAdd => ModelStart.rbind (ModelStart.apiStart (nCom st) ModelStart.AIndex) (λ _, ModelStart.Ok st)
  | NDelete => ModelStart.rbind (ModelStart.apiStart (nCom st) ModelStart.ARemove) (λ _, ModelStart.Ok st)
  | NGrpcDelete => ModelStart.rbind (ModelStart.apiStart (nGrpc st) ModelStart.ARemove) (λ _, ModelStart.Ok st)
  end.
Fixpoint netRun (st : NetState) (cs : list netCall) : ModelStart.res NetState :=
  match cs with
  | [] => ModelStart.Ok st
  | c :: cs' => ModelStart.rbind (netStep st c) (λ st', netRun st' cs')
  end.

(** net/grpc/grpcc.go:31-41 Doc; Attri is the encoded form *)
Record GDoc := mkGDoc {
  gdId : Z; gdContent : string; gdAttri : string; gdTokens : list (string * list Z);
  gdLabels : list string; gdForce : bool }.
(** doc.pb.go DocReq *)
Record DocReq := mkDocReq {
  dqId : string; dqContent : string; dqAttri : string; dqTokens : list (string * list Z);
  dqLabels : list string; dqForce : bool }.
(** net/grpc/grpcc.go:44-67 InitGrpcc: the request sent for a document *)
Definition grpccReq (d : GDoc) : DocReq :=
  mkDocReq "" (gdContent d) (gdAttri d) (gdTokens d) [] false.
(** net/grpc/grpc.go:35-72 addDoc: the arguments of com.AddDocInx; [unmarshal] is
    proto.Unmarshal, whose error is only logged (fields decoded so far, or zero) *)
Record IndexCall := mkIndexCall {
  icId : string; icContent : string; icAttri : Attri; icTokens : list (string * list Z);
  icLabels : list string; icForce : bool }.
Definition addDoc (unmarshal : string → string * Z) (q : DocReq) : IndexCall :=
  mkIndexCall (dqId q) (dqContent q)
    (mkAttri "" "" (unmarshal (dqAttri q)).1 (unmarshal (dqAttri q)).2) (dqTokens q) [] (dqForce q).
