(** Executable model of the gRPC service with the real encoding of its messages: the
    handlers of net/grpc/grpc.go and the clients of net/grpc/grpcc.go on the bytes that
    travel between them.

    The transport (google.golang.org/grpc) is assumed to deliver the bytes of one message
    unchanged, to answer with an error if Unmarshal does, and not to recover from panics
    (it does not); proto.Marshal and proto.Unmarshal of the library reset the message and
    call the methods of doc.pb.go (XXX_Marshal, XXX_Unmarshal, doc.pb.go:41-56 and the
    like). *)
From Verif Require Export ModelNet ModelWire.

(** What a call does: the handler runs with these arguments, the call is answered with an
    error, or the server process ends *)
Inductive served (A : Type) := Served (a : A) | Refused | Crashed.
Global Arguments Served {A} _.
Global Arguments Refused {A}.
Global Arguments Crashed {A}.
(** decoding before a handler runs *)
Definition receive {M A} (r : um M) (handler : M → served A) : served A :=
  match r with UOk m => handler m | UErr _ => Refused | UBoom | UMore => Crashed end.

(** net/grpc/grpcc.go:54-58: pb.DocReq of a document; all fields of pb.DocReq but
    [Fields] are those of [DocReq] *)
Definition docMsg (q : DocReq) : WDoc :=
  mkWDoc (dqId q) (dqContent q) (bytesOf (dqAttri q)) (map (λ t, mkWTok t.1 t.2 []) (dqTokens q)) (dqLabels q) [] (dqForce q) [].
Definition sendDoc (q : DocReq) : option bytes := Doc_Marshal (docMsg q).
(** net/grpc/grpc.go:85-89 DocInx and 35-72 addDoc: the arguments of com.AddDocInx.  An
    error of proto.Unmarshal is logged only; the fields decoded until then are used. *)
Definition reqOf (m : WDoc) : DocReq :=
  mkDocReq (wdId m) (wdContent m) (stringOf (wdAttri m)) (map (λ t, (wtText t, wtLocs t)) (wdTokens m)) (wdLabels m) (wdForce m).
Definition recvDoc (data : bytes) : served IndexCall :=
  receive (Doc_Unmarshal zeroDoc data) (λ m,
    match Attri_Unmarshal zeroAttri (wdAttri m) with
    | UOk a | UErr a => Served (addDoc (λ _, (waTime a, waTs a)) (reqOf m))
    | UBoom | UMore => Crashed
    end).

(** net/grpc/grpcc.go:113-140 InitDelGrpcc; net/grpc/grpc.go:91-95 Delete: the id for
    RemoveDoc *)
Definition sendDel (id : string) : option bytes := Del_Marshal (mkWDel id []).
Definition recvDel (data : bytes) : served string := receive (Del_Unmarshal zeroDel data) (λ m, Served (wlId m)).
(** net/grpc/grpc.go:80-83 HeartBeat: the result sent back *)
Definition recvHeart (data : bytes) : served bytes :=
  receive (Heart_Unmarshal zeroHeart data) (λ m,
    match Reply_Marshal (mkWReply (whMsg m) []) with Some b => Served b | None => Crashed end).

(** net/com/search.go:105-111 SearchArgs *)
Record SeaArgs := mkSea {
  saId : string; saQuery : string; saTime : string; saOff : Z; saMax : Z; saDocIds : gmap string bool; saLogic : Logic }.
(** net/grpc/grpcc.go:80-101 InitSearchRpc *)
Definition searchMsg (s : SeaArgs) : WSearch :=
  let '(off, max) := rpcPage (saOff s) (saMax s) in
  let g := saLogic s in
  mkWSearch (saId s) (saQuery s) off max (saTime s) (saDocIds s)
    (Some (mkWLogic (lMust g) (lShould g) (lNotIn g) (Some (mkWExpr (eMust g) (eShould g) (eNotIn g) [])) [])) [].
Definition sendSearch (rs rm : gmap string bool → list (string * bool)) (s : SeaArgs) : option bytes :=
  Search_Marshal rs rm (searchMsg s).
(** net/grpc/grpc.go:97-132 Search: the arguments of rpcSearch *)
Definition recvSearch (cf : NetConf) (data : bytes) : served SeaArgs :=
  receive (Search_Unmarshal zeroSearch data) (λ m,
    match wsLogic m with
    | Some (mkWLogic mu sh no (Some (mkWExpr em es en _)) _) =>
      let '(off, max) := pageOf cf (wsOffset m) (wsMax m) in
      Served (mkSea (wsId m) (wsQuery m) (wsTime m) off max (wsDocIds m) (mkLogic mu sh no em es en))
    | _ => Crashed
    end).

(** net/grpc/search.go:81-109 rpcSearch: the reply with the texts found; [now] is
    time.Now().Unix() *)
Definition textMsg (t : Text) : WText :=
  mkWText (txId t) (txContent t) (Some (mkWAttri "" "" (atTime (txAttri t)) (atTs (txAttri t)) [])) [].
Definition answerMsg (now : Z) (texts : list Text) : WAnswer :=
  mkWAnswer 0 (GoBase.int32 (zlen texts)) now (map textMsg texts) [].
Definition sendAnswer (now : Z) (texts : list Text) : option bytes := Answer_Marshal (answerMsg now texts).
(** what the caller of InitSearchRpc gets: code, number, time, texts; an absent Attri panics when
    it is used (net/grpc/search.go:44-65 Less) *)
Definition textOf (t : WText) : option Text :=
  a ← wxAttri t; Some (mkText (wxId t) (wxContent t) [] (mkAttri (waTitle a) (waAuthor a) (waTime a) (waTs a))).
Definition recvAnswer (data : bytes) : served (Z * Z * Z * list Text) :=
  receive (Answer_Unmarshal zeroAnswer data) (λ m,
    match mapM textOf (wnDocs m) with Some l => Served (wnCode m, wnLen m, wnTimestamp m, l) | None => Crashed end).
