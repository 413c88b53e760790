(** The handlers of the servers, from the request to the call of the engine:
    net/http/http.go (Search, AddIndex, DelIndex), net/grpc/grpc.go (DocInx, HeartBeat) and
    net/com/search.go (AddDocInx, Delete, Flush).

    Not modelled: the transport, the decoding of URLs, bodies and protobuf messages (a request
    is its decoded parameters), the responses of AddIndex and DelIndex (constant apart from the
    time), the clock (the time stamps are parameters), logging. *)
From Verif Require Export ModelWhole ModelNet.

(** http.Request, as far as the handlers use it: whether the method is POST, PUT or PATCH,
    and the decoded parameters of the URL and of a form body, in order *)
Record httpReq := mkHttp {
  hrPost : bool; hrUrl : list (string * string); hrBody : list (string * string) }.

(** url.Values: the values of a key, in order *)
Definition values (key : string) (l : list (string * string)) : list string :=
  omap (λ p, if seqb p.1 key then Some p.2 else None) l.
(** req.ParseForm (net/http/http.go:63, 139): the body is read for POST, PUT and PATCH only,
    and its values come before those of the URL *)
Definition formValues (key : string) (r : httpReq) : list string :=
  (if hrPost r then values key (hrBody r) else []) ++ values key (hrUrl r).
(** net/http/http.go:64-82, 140-146: the first value, or what the variable started with *)
Definition form (key : string) (r : httpReq) : string :=
  match formValues key r with v :: _ => v | [] => "" end.
(** req.URL.Query().Get (net/http/http.go:169) *)
Definition urlGet (key : string) (r : httpReq) : string :=
  match values key (hrUrl r) with v :: _ => v | [] => "" end.

(** strconv.Atoi with its error ignored (net/http/http.go:73, 77).  [parseDigits]: the digit
    loop of ParseUint; None = syntax error (the result is 0), a value of 2^64 stands for the
    range error, found as soon as the digits read so far are too big. *)
Definition digit (c : Ascii.ascii) : option Z :=
  let n := Z.of_nat (Ascii.nat_of_ascii c) in
  if (48 <=? n) && (n <=? 57) then Some (n - 48) else None.
Fixpoint parseDigits (n : Z) (s : string) : option Z :=
  match s with
  | EmptyString => Some n
  | String c s' =>
    d ← digit c;
    if n * 10 + d >? 2^64 - 1 then Some (2^64) else parseDigits (n * 10 + d) s'
  end.
Definition minusSign : Ascii.ascii := Ascii.ascii_of_nat 45.
Definition plusSign : Ascii.ascii := Ascii.ascii_of_nat 43.
Definition parseUint (s : string) : option Z :=
  match s with EmptyString => None | _ => parseDigits 0 s end.
Definition Atoi (s : string) : Z :=
  let '(neg, s') :=
    match s with
    | String c r => if Ascii.eqb c minusSign then (true, r) else if Ascii.eqb c plusSign then (false, r) else (false, s)
    | EmptyString => (false, s)
    end in
  match parseUint s' with
  | None => 0
  | Some un =>
    if neg then (if un >? 2^63 then - 2^63 else - un)
    else if un >=? 2^63 then 2^63 - 1 else un
  end.

(** net/http/http.go:54-130 Search from the request on; [engine query off max] as in
    ModelNet.v *)
Definition httpSearchReq (asAttri : Iface → option Attri) (sortTexts : (Text → Text → bool) → list Text → list Text)
    (cf : NetConf) (engine : string → Z → Z → option SearchResp) (r : httpReq) : option (list Text) :=
  httpSearch asAttri sortTexts cf (engine (form "query" r))
    (Atoi (form "outputOffset" r)) (Atoi (form "maxOutputs" r)).

Section Server.
  (** conversion of a types.Attri to interface{} *)
  Variable box : Attri → Iface.
  (** proto.Unmarshal of an Attri message, see ModelNet.v *)
  Variable unmarshal : string → string * Z.

  (** The writes asked of the engine by a server: Index, or RemoveDoc *)
  Inductive srvCall :=
    | SrvIndex (docId : string) (data : DocData) (force : bool)
    | SrvRemove (docId : string) (force : bool).

  (** net/http/http.go:133-165 AddIndex with net/com/search.go:94-97 AddDocInx; [time], [ts]: the clock *)
  Definition AddIndex (time : string) (ts : Z) (r : httpReq) : srvCall :=
    SrvIndex (form "docid" r)
      (mkData (form "query" r) (box (mkAttri "" "" time ts)) [] [] INil) false.
  (** net/http/http.go:168-174 DelIndex with net/com/search.go:132-134 Delete *)
  Definition DelIndex (r : httpReq) : srvCall := SrvRemove (urlGet "docid" r) false.
  (** net/grpc/grpc.go:84-88 DocInx with addDoc, lines 35-72 (ModelNet.v), and AddDocInx *)
  Definition DocInx (q : DocReq) : srvCall :=
    let c := addDoc unmarshal q in
    SrvIndex (icId c) (mkData (icContent c) (box (icAttri c)) ((λ t, mkTok t.1 t.2) <$> icTokens c) (icLabels c) INil) (icForce c).

  (** net/grpc/grpc.go:79-82 HeartBeat: the result of the reply *)
  Definition HeartBeat (msg : Z) : Z := msg.

  (** The call of the engine, with the document that the segmenter makes of the data (see
      ModelWhole.v); None = the segmenter panics *)
  Definition srvWcall (X : Ext) (stop : gset string) (o : SegOpts) (c : srvCall) : option wcall :=
    match c with
    | SrvIndex id d force => doc ← segDoc X stop o id d; Some (WIndex doc d force)
    | SrvRemove id force => Some (WRemove id force)
    end.
End Server.
