(** Executable model of net/grpc/riot-pb/doc.pb.go: how the messages of the gRPC service
    are turned into bytes and back.

    A []byte is a list of integers from 0 to 255.  Simplifications: nil and empty slices
    and maps are the same (the code treats them alike), the elements of []*TokenData and
    []*Text are not nil, Size does not wrap around, error values carry no text.  The
    getters, String, Descriptor, the client and server stubs (lines 797-950) and the
    registration calls are not modelled. *)
From Verif Require Export GoBase.

Notation bytes := (list Z) (only parsing).
(** []byte(s) and string(b) *)
Fixpoint bytesOf (s : string) : bytes :=
  match s with EmptyString => [] | String a r => Z.of_N (Ascii.N_of_ascii a) :: bytesOf r end.
Fixpoint stringOf (b : bytes) : string :=
  match b with [] => EmptyString | x :: r => String (Ascii.ascii_of_N (Z.to_N x)) (stringOf r) end.
Definition uint8 (x : Z) : Z := x `mod` 256.

(** * The messages: doc.pb.go:28-33, 76-88, 173-179, 228-233, 276-281, 324-334, 418-426,
      489-497, 553-561, 624-635, 698-709; [...Rest] is XXX_unrecognized *)
Record WHeart := mkWHeart { whMsg : Z; whRest : bytes }.
Record WTok := mkWTok { wtText : string; wtLocs : list Z; wtRest : bytes }.
Record WDoc := mkWDoc {
  wdId : string; wdContent : string; wdAttri : bytes; wdTokens : list WTok; wdLabels : list string;
  wdFields : bytes; wdForce : bool; wdRest : bytes }.
Record WDel := mkWDel { wlId : string; wlRest : bytes }.
Record WReply := mkWReply { wrResult : Z; wrRest : bytes }.
Record WExpr := mkWExpr { weMust : list string; weShould : list string; weNotIn : list string; weRest : bytes }.
Record WLogic := mkWLogic { wgMust : bool; wgShould : bool; wgNotIn : bool; wgExpr : option WExpr; wgRest : bytes }.
Record WSearch := mkWSearch {
  wsId : string; wsQuery : string; wsOffset : Z; wsMax : Z; wsTime : string; wsDocIds : gmap string bool;
  wsLogic : option WLogic; wsRest : bytes }.
Record WAttri := mkWAttri { waTitle : string; waAuthor : string; waTime : string; waTs : Z; waRest : bytes }.
Record WText := mkWText { wxId : string; wxContent : string; wxAttri : option WAttri; wxRest : bytes }.
Record WAnswer := mkWAnswer { wnCode : Z; wnLen : Z; wnTimestamp : Z; wnDocs : list WText; wnRest : bytes }.

(** * Size *)
(** doc.pb.go:1796-1805 sovDoc; a uint64 has at most ten groups of seven bits *)
Fixpoint sov (fuel : nat) (x : Z) : Z :=
  match fuel with O => 0 | S f => let x' := Z.shiftr x 7 in if x' =? 0 then 1 else 1 + sov f x' end.
Definition sovDoc (x : Z) : Z := sov 10 x.
(** 1 + l + sovDoc(uint64(l)) *)
Definition lenSize (l : Z) : Z := 1 + l + sovDoc (u64 l).
Definition optLen (l : Z) : Z := if 0 <? l then lenSize l else 0.
Definition optNum (v : Z) : Z := if v =? 0 then 0 else 1 + sovDoc (u64 v).
Definition optFlag (b : bool) : Z := if b then 2 else 0.
Definition sumZ {A} (f : A → Z) (l : list A) : Z := foldl (λ n x, n + f x) 0 l.

(** doc.pb.go:1509-1522 *)
Definition Heart_Size (m : WHeart) : Z := optNum (whMsg m) + zlen (whRest m).
(** doc.pb.go:1567-1588 *)
Definition Tok_Size (m : WTok) : Z :=
  optLen (strlen (wtText m)) +
  (if 0 <? zlen (wtLocs m) then let l := sumZ (λ e, sovDoc (u64 e)) (wtLocs m) in 1 + sovDoc (u64 l) + l else 0) +
  zlen (wtRest m).
(** doc.pb.go:1524-1565 *)
Definition Doc_Size (m : WDoc) : Z :=
  optLen (strlen (wdId m)) + optLen (strlen (wdContent m)) + optLen (zlen (wdAttri m)) +
  sumZ (λ e, lenSize (Tok_Size e)) (wdTokens m) + sumZ (λ s, lenSize (strlen s)) (wdLabels m) +
  optLen (zlen (wdFields m)) + optFlag (wdForce m) + zlen (wdRest m).
(** doc.pb.go:1590-1604 *)
Definition Del_Size (m : WDel) : Z := optLen (strlen (wlId m)) + zlen (wlRest m).
(** doc.pb.go:1606-1619 *)
Definition Reply_Size (m : WReply) : Z := optNum (wrResult m) + zlen (wrRest m).
(** doc.pb.go:1766-1794 *)
Definition Expr_Size (m : WExpr) : Z :=
  sumZ (λ s, lenSize (strlen s)) (weMust m) + sumZ (λ s, lenSize (strlen s)) (weShould m) +
  sumZ (λ s, lenSize (strlen s)) (weNotIn m) + zlen (weRest m).
(** doc.pb.go:1741-1764 *)
Definition Logic_Size (m : WLogic) : Z :=
  optFlag (wgMust m) + optFlag (wgShould m) + optFlag (wgNotIn m) +
  match wgExpr m with Some e => lenSize (Expr_Size e) | None => 0 end + zlen (wgRest m).
(** doc.pb.go:1621-1661; [rng]: the map as the range loop visits it *)
Definition entrySize (k : string) : Z := 1 + strlen k + sovDoc (u64 (strlen k)) + 1 + 1.
Definition Search_Size (rng : gmap string bool → list (string * bool)) (m : WSearch) : Z :=
  optLen (strlen (wsId m)) + optLen (strlen (wsQuery m)) + optNum (wsOffset m) + optNum (wsMax m) + optLen (strlen (wsTime m)) +
  sumZ (λ e, lenSize (entrySize e.1)) (rng (wsDocIds m)) +
  match wsLogic m with Some g => lenSize (Logic_Size g) | None => 0 end + zlen (wsRest m).
(** doc.pb.go:1714-1739 *)
Definition Attri_Size (m : WAttri) : Z :=
  optLen (strlen (waTitle m)) + optLen (strlen (waAuthor m)) + optLen (strlen (waTime m)) + optNum (waTs m) + zlen (waRest m).
(** doc.pb.go:1690-1712 *)
Definition Text_Size (m : WText) : Z :=
  optLen (strlen (wxId m)) + optLen (strlen (wxContent m)) +
  match wxAttri m with Some a => lenSize (Attri_Size a) | None => 0 end + zlen (wxRest m).
(** doc.pb.go:1663-1688 *)
Definition Answer_Size (m : WAnswer) : Z :=
  optNum (wnCode m) + optNum (wnLen m) + optNum (wnTimestamp m) + sumZ (λ e, lenSize (Text_Size e)) (wnDocs m) + zlen (wnRest m).

(** * MarshalTo: a writer takes the buffer and the index to write at; None = panic *)
Definition writer := (bytes * Z) → option (bytes * Z).
Definition skipW : writer := Some.
Definition seqW (w1 w2 : writer) : writer := λ s, s' ← w1 s; w2 s'.
Notation "w1 ;> w2" := (seqW w1 w2) (at level 60, right associativity).
(** dAtA[i] = b; i++ *)
Definition putW (b : Z) : writer := λ s, buf ← zset s.1 s.2 b; Some (buf, s.2 + 1).
(** doc.pb.go:1500-1508 encodeVarintDoc; the loops at 1026-1036, 1080-1089, 1450-1460,
    1465-1475, 1480-1490 write the same bytes *)
Fixpoint varintW (fuel : nat) (v : Z) : writer :=
  match fuel with
  | O => λ _, None
  | S f => if 128 <=? v then putW (uint8 (Z.lor (Z.land v 127) 128)) ;> varintW f (Z.shiftr v 7) else putW (uint8 v)
  end.
Definition encodeVarintDoc (v : Z) : writer := varintW 11 v.
(** i += copy(dAtA[i:], b) *)
Definition copyW (b : bytes) : writer := λ s,
  rest ← zslice s.1 s.2 (zlen s.1);
  let n := Z.min (zlen rest) (zlen b) in
  Some (take (Z.to_nat s.2) s.1 ++ take (Z.to_nat n) b ++ drop (Z.to_nat n) rest, s.2 + n).
(** n, err := msg.MarshalTo(dAtA[i:]); i += n *)
Definition innerW (w : writer) : writer := λ s,
  rest ← zslice s.1 s.2 (zlen s.1);
  r ← w (rest, 0);
  Some (take (Z.to_nat s.2) s.1 ++ r.1, s.2 + r.2).
Fixpoint eachW {A} (w : A → writer) (l : list A) : writer :=
  match l with [] => skipW | x :: r => w x ;> eachW w r end.
Definition ifW (c : bool) (w : writer) : writer := if c then w else skipW.

(** tag, length, contents *)
Definition lenW (tag : Z) (b : bytes) : writer := putW tag ;> encodeVarintDoc (u64 (zlen b)) ;> copyW b.
Definition optLenW (tag : Z) (b : bytes) : writer := ifW (0 <? zlen b) (lenW tag b).
Definition optNumW (tag v : Z) : writer := ifW (negb (v =? 0)) (putW tag ;> encodeVarintDoc (u64 v)).
Definition optFlagW (tag : Z) (b : bool) : writer := ifW b (putW tag ;> putW (if b then 1 else 0)).
(** tag, length, message *)
Definition msgW (tag size : Z) (w : writer) : writer := putW tag ;> encodeVarintDoc (u64 size) ;> innerW w.

(** doc.pb.go:962-976 *)
Definition Heart_MarshalTo (m : WHeart) : writer := optNumW 0x8 (whMsg m) ;> copyW (whRest m).
(** doc.pb.go:1070-1103: the locations are written to a second slice first *)
Definition locsW (locs : list Z) : writer := eachW (λ v, varintW 11 (u64 v)) locs.
Definition Tok_MarshalTo (m : WTok) : writer :=
  optLenW 0xa (bytesOf (wtText m)) ;>
  ifW (0 <? zlen (wtLocs m)) (λ s,
    r ← locsW (wtLocs m) (replicate (length (wtLocs m) * 10) 0, 0);
    packed ← zslice r.1 0 r.2;
    (putW 0x12 ;> encodeVarintDoc (u64 r.2) ;> copyW packed) s) ;>
  copyW (wtRest m).
(** doc.pb.go:988-1058 *)
Definition Doc_MarshalTo (m : WDoc) : writer :=
  optLenW 0xa (bytesOf (wdId m)) ;> optLenW 0x12 (bytesOf (wdContent m)) ;> optLenW 0x1a (wdAttri m) ;>
  eachW (λ t, msgW 0x22 (Tok_Size t) (Tok_MarshalTo t)) (wdTokens m) ;>
  eachW (λ s, lenW 0x2a (bytesOf s)) (wdLabels m) ;>
  optLenW 0x32 (wdFields m) ;> optFlagW 0x38 (wdForce m) ;> copyW (wdRest m).
(** doc.pb.go:1115-1130 *)
Definition Del_MarshalTo (m : WDel) : writer := optLenW 0xa (bytesOf (wlId m)) ;> copyW (wlRest m).
(** doc.pb.go:1142-1156 *)
Definition Reply_MarshalTo (m : WReply) : writer := optNumW 0x8 (wrResult m) ;> copyW (wrRest m).
(** doc.pb.go:1444-1498 *)
Definition Expr_MarshalTo (m : WExpr) : writer :=
  eachW (λ s, lenW 0xa (bytesOf s)) (weMust m) ;> eachW (λ s, lenW 0x12 (bytesOf s)) (weShould m) ;>
  eachW (λ s, lenW 0x1a (bytesOf s)) (weNotIn m) ;> copyW (weRest m).
(** doc.pb.go:1383-1432 *)
Definition Logic_MarshalTo (m : WLogic) : writer :=
  optFlagW 0x8 (wgMust m) ;> optFlagW 0x10 (wgShould m) ;> optFlagW 0x18 (wgNotIn m) ;>
  match wgExpr m with Some e => msgW 0x22 (Expr_Size e) (Expr_MarshalTo e) | None => skipW end ;> copyW (wgRest m).
(** doc.pb.go:1168-1236; [v := m.DocIds[k]] is the zero value for a key that is not there *)
Definition entryW (m : gmap string bool) (k : string) : writer :=
  putW 0x32 ;> encodeVarintDoc (u64 (entrySize k)) ;> putW 0xa ;> encodeVarintDoc (u64 (strlen k)) ;> copyW (bytesOf k) ;>
  putW 0x10 ;> putW (if default false (m !! k) then 1 else 0).
Definition Search_MarshalTo (rng : gmap string bool → list (string * bool)) (m : WSearch) : writer :=
  optLenW 0xa (bytesOf (wsId m)) ;> optLenW 0x12 (bytesOf (wsQuery m)) ;> optNumW 0x18 (wsOffset m) ;> optNumW 0x20 (wsMax m) ;>
  optLenW 0x2a (bytesOf (wsTime m)) ;>
  eachW (λ e, entryW (wsDocIds m) e.1) (rng (wsDocIds m)) ;>
  match wsLogic m with Some g => msgW 0x3a (Logic_Size g) (Logic_MarshalTo g) | None => skipW end ;> copyW (wsRest m).
(** doc.pb.go:1339-1371 *)
Definition Attri_MarshalTo (m : WAttri) : writer :=
  optLenW 0xa (bytesOf (waTitle m)) ;> optLenW 0x12 (bytesOf (waAuthor m)) ;> optLenW 0x1a (bytesOf (waTime m)) ;>
  optNumW 0x20 (waTs m) ;> copyW (waRest m).
(** doc.pb.go:1296-1327 *)
Definition Text_MarshalTo (m : WText) : writer :=
  optLenW 0xa (bytesOf (wxId m)) ;> optLenW 0x12 (bytesOf (wxContent m)) ;>
  match wxAttri m with Some a => msgW 0x1a (Attri_Size a) (Attri_MarshalTo a) | None => skipW end ;> copyW (wxRest m).
(** doc.pb.go:1248-1284 *)
Definition Answer_MarshalTo (m : WAnswer) : writer :=
  optNumW 0x8 (wnCode m) ;> optNumW 0x10 (wnLen m) ;> optNumW 0x18 (wnTimestamp m) ;>
  eachW (λ t, msgW 0x22 (Text_Size t) (Text_MarshalTo t)) (wnDocs m) ;> copyW (wnRest m).

(** doc.pb.go:952-960 and the same for the other messages: Marshal *)
Definition marshal (size : Z) (w : writer) : option bytes :=
  r ← w (replicate (Z.to_nat size) 0, 0); zslice r.1 0 r.2.
Definition Heart_Marshal (m : WHeart) := marshal (Heart_Size m) (Heart_MarshalTo m).
Definition Tok_Marshal (m : WTok) := marshal (Tok_Size m) (Tok_MarshalTo m).
Definition Doc_Marshal (m : WDoc) := marshal (Doc_Size m) (Doc_MarshalTo m).
Definition Del_Marshal (m : WDel) := marshal (Del_Size m) (Del_MarshalTo m).
Definition Reply_Marshal (m : WReply) := marshal (Reply_Size m) (Reply_MarshalTo m).
Definition Expr_Marshal (m : WExpr) := marshal (Expr_Size m) (Expr_MarshalTo m).
Definition Logic_Marshal (m : WLogic) := marshal (Logic_Size m) (Logic_MarshalTo m).
(** [rs], [rm]: the orders of the two range loops *)
Definition Search_Marshal (rs rm : gmap string bool → list (string * bool)) (m : WSearch) :=
  marshal (Search_Size rs m) (Search_MarshalTo rm m).
Definition Attri_Marshal (m : WAttri) := marshal (Attri_Size m) (Attri_MarshalTo m).
Definition Text_Marshal (m : WText) := marshal (Text_Size m) (Text_MarshalTo m).
Definition Answer_Marshal (m : WAnswer) := marshal (Answer_Size m) (Answer_MarshalTo m).

(** * Unmarshal *)
(** What reading gives: a value and the index after it, an error (with the part read so
    far), a panic, or (never, see C109) no result within the bound on the steps. *)
Inductive rd (A : Type) := Got (a : A) (i : Z) | Bad (a : A) | Boom | More.
Global Arguments Got {A} _ _.
Global Arguments Bad {A} _.
Global Arguments Boom {A}.
Global Arguments More {A}.

(** The loop of doc.pb.go:1815-1828 and all its copies; [trunc] is the conversion to the
    type of the variable: uint64, int (64 bit) or int32.  In Go, << drops the bits that do
    not fit in the type. *)
Fixpoint readVar (fuel : nat) (trunc : Z → Z) (data : bytes) (shift v i : Z) : rd Z :=
  match fuel with
  | O => More
  | S f =>
    if 64 <=? shift then Bad v
    else if zlen data <=? i then Bad v
    else match zget data i with
         | None => Boom
         | Some b =>
           let v' := Z.lor v (trunc (Z.shiftl (Z.land b 127) shift)) in
           if b <? 128 then Got v' (i + 1) else readVar f trunc data (shift + 7) v' (i + 1)
         end
  end.
Definition readNum (trunc : Z → Z) (data : bytes) (i : Z) : rd Z := readVar 11 trunc data 0 0 i.

(** A length, then that many bytes: doc.pb.go:1912-1936 ([trunc] = uint64, then int(...))
    and 1970-1996 ([trunc] = int).  iNdEx + len wraps around. *)
Definition readBytes (trunc : Z → Z) (data : bytes) (i : Z) : rd bytes :=
  match readNum trunc data i with
  | Got n j =>
    let len := int64 n in
    if len <? 0 then Bad []
    else let post := int64 (j + len) in
      if zlen data <? post then Bad []
      else match zslice data j post with Some b => Got b post | None => Boom end
  | Bad _ => Bad []
  | Boom => Boom
  | More => More
  end.

(** doc.pb.go:3530-3558, the fields of a group; [skip] is skipDoc *)
Fixpoint skipGroup (fuel : nat) (skip : bytes → rd unit) (data : bytes) (i : Z) : rd unit :=
  match fuel with
  | O => More
  | S f =>
    match readNum u64 data i with
    | Got w j =>
      if Z.land w 7 =? 4 then Got () j
      else match zslice data i (zlen data) with
           | None => Boom
           | Some d =>
             match skip d with Got _ n => skipGroup f skip data (int64 (i + n)) | Bad _ => Bad () | Boom => Boom | More => More end
           end
    | Bad _ => Bad ()
    | Boom => Boom
    | More => More
    end
  end.
(** doc.pb.go:3471-3569 skipDoc: the index after the field at the start *)
Fixpoint skipD (fuel : nat) (data : bytes) : rd unit :=
  match fuel with
  | O => More
  | S f =>
    if 0 <? zlen data then
      match readNum u64 data 0 with
      | Got w i =>
        let wt := Z.land w 7 in
        if wt =? 0 then
          match readNum u64 data i with Got _ j => Got () j | Bad _ => Bad () | Boom => Boom | More => More end
        else if wt =? 1 then Got () (int64 (i + 8))
        else if wt =? 2 then
          match readNum int64 data i with
          | Got len j => if len <? 0 then Bad () else Got () (int64 (j + len))
          | Bad _ => Bad () | Boom => Boom | More => More
          end
        else if wt =? 3 then skipGroup (S (length data)) (skipD f) data i
        else if wt =? 4 then Got () i
        else if wt =? 5 then Got () (int64 (i + 4))
        else Bad ()
      | Bad _ => Bad ()
      | Boom => Boom
      | More => More
      end
    else Boom
  end.
Definition skipDoc (data : bytes) : rd unit := skipD (S (length data)) data.

(** What Unmarshal gives: the message with no error, the message as it is when an error is
    returned, a panic, or no result within the bound *)
Inductive um (M : Type) := UOk (m : M) | UErr (m : M) | UBoom | UMore.
Global Arguments UOk {M} _.
Global Arguments UErr {M} _.
Global Arguments UBoom {M}.
Global Arguments UMore {M}.

Section Fields.
  Context {M : Type}.
  (** [field num wt data i m]: the case of the switch for this field number; None = default *)
  Context (field : Z → Z → bytes → Z → M → option (rd M)).
  (** m.XXX_unrecognized = append(m.XXX_unrecognized, ...) *)
  Context (keep : bytes → M → M).
  (** doc.pb.go:1809-1878 and the same for the other messages *)
  Fixpoint fields (fuel : nat) (data : bytes) (i : Z) (m : M) : um M :=
    match fuel with
    | O => UMore
    | S f =>
      if i <? zlen data then
        match readNum u64 data i with
        | Got wire j =>
          let num := int32 (Z.shiftr wire 3) in
          let wt := Z.land wire 7 in
          if wt =? 4 then UErr m
          else if num <=? 0 then UErr m
          else match field num wt data j m with
               | Some (Got m' k) => fields f data k m'
               | Some (Bad m') => UErr m'
               | Some Boom => UBoom
               | Some More => UMore
               | None =>
                 match zslice data i (zlen data) with
                 | None => UBoom
                 | Some d =>
                   match skipDoc d with
                   | Got _ n =>
                     if n <? 0 then UErr m
                     else let k := int64 (i + n) in
                       if zlen data <? k then UErr m
                       else match zslice data i k with Some b => fields f data k (keep b m) | None => UBoom end
                   | Bad _ => UErr m
                   | Boom => UBoom
                   | More => UMore
                   end
                 end
               end
        | Bad _ => UErr m
        | Boom => UBoom
        | More => UMore
        end
      else if zlen data <? i then UErr m else UOk m
    end.
  Definition unmarshal (m : M) (data : bytes) : um M := fields (S (length data)) data 0 m.
End Fields.

Section Cases.
  Context {M : Type} (data : bytes) (wt i : Z) (m : M).
  (** doc.pb.go:1908-1936: a string; [set] stores it *)
  Definition strCase (set : string → M) : rd M :=
    if wt =? 2 then
      match readBytes u64 data i with Got b j => Got (set (stringOf b)) j | Bad _ => Bad m | Boom => Boom | More => More end
    else Bad m.
  (** doc.pb.go:1966-1996: bytes *)
  Definition bytesCase (set : bytes → M) : rd M :=
    if wt =? 2 then
      match readBytes int64 data i with Got b j => Got (set b) j | Bad _ => Bad m | Boom => Boom | More => More end
    else Bad m.
  (** doc.pb.go:1838-1856: a number, kept also if an error ends it *)
  Definition numCase (trunc : Z → Z) (set : Z → M) : rd M :=
    if wt =? 0 then
      match readNum trunc data i with Got v j => Got (set v) j | Bad v => Bad (set v) | Boom => Boom | More => More end
    else Bad m.
  (** doc.pb.go:2088-2107: a bool *)
  Definition flagCase (set : bool → M) : rd M :=
    if wt =? 0 then
      match readNum int64 data i with Got v j => Got (set (negb (v =? 0))) j | Bad _ => Bad m | Boom => Boom | More => More end
    else Bad m.
  (** doc.pb.go:1997-2027: a message; [from]: what it is decoded into *)
  Definition msgCase {N} (dec : N → bytes → um N) (from : N) (set : N → M) : rd M :=
    if wt =? 2 then
      match readBytes int64 data i with
      | Got b j => match dec from b with UOk x => Got (set x) j | UErr x => Bad (set x) | UBoom => Boom | UMore => More end
      | Bad _ => Bad m | Boom => Boom | More => More
      end
    else Bad m.
End Cases.

(** doc.pb.go:1809-1878 *)
Definition Heart_field (num wt : Z) (data : bytes) (i : Z) (m : WHeart) : option (rd WHeart) :=
  if num =? 1 then Some (numCase data wt i m int32 (λ v, mkWHeart v (whRest m))) else None.
Definition Heart_keep (b : bytes) (m : WHeart) : WHeart := mkWHeart (whMsg m) (whRest m ++ b).
Definition Heart_Unmarshal := unmarshal Heart_field Heart_keep.

(** doc.pb.go:2235-2253: packed locations up to [post] *)
Fixpoint packed (fuel : nat) (data : bytes) (post i : Z) (locs : list Z) : rd (list Z) :=
  match fuel with
  | O => More
  | S f =>
    if i <? post then
      match readNum int32 data i with
      | Got v j => packed f data post j (locs ++ [v])
      | Bad _ => Bad locs | Boom => Boom | More => More
      end
    else Got locs i
  end.
(** doc.pb.go:2130-2282 *)
Definition Tok_field (num wt : Z) (data : bytes) (i : Z) (m : WTok) : option (rd WTok) :=
  let setL l := mkWTok (wtText m) l (wtRest m) in
  if num =? 1 then Some (strCase data wt i m (λ s, mkWTok s (wtLocs m) (wtRest m)))
  else if num =? 2 then Some (
    if wt =? 0 then
      match readNum int32 data i with Got v j => Got (setL (wtLocs m ++ [v])) j | Bad _ => Bad m | Boom => Boom | More => More end
    else if wt =? 2 then
      match readNum int64 data i with
      | Got len j =>
        if len <? 0 then Bad m
        else let post := int64 (j + len) in
          if zlen data <? post then Bad m
          else match packed (S (length data)) data post j (wtLocs m) with
               | Got l k => Got (setL l) k | Bad l => Bad (setL l) | Boom => Boom | More => More
               end
      | Bad _ => Bad m | Boom => Boom | More => More
      end
    else Bad m)
  else None.
Definition Tok_keep (b : bytes) (m : WTok) : WTok := mkWTok (wtText m) (wtLocs m) (wtRest m ++ b).
Definition Tok_Unmarshal := unmarshal Tok_field Tok_keep.
Definition zeroTok : WTok := mkWTok "" [] [].

(** doc.pb.go:1879-2129 *)
Definition Doc_field (num wt : Z) (data : bytes) (i : Z) (m : WDoc) : option (rd WDoc) :=
  let '(mkWDoc id ct at_ tk lb fi fo re) := m in
  if num =? 1 then Some (strCase data wt i m (λ s, mkWDoc s ct at_ tk lb fi fo re))
  else if num =? 2 then Some (strCase data wt i m (λ s, mkWDoc id s at_ tk lb fi fo re))
  else if num =? 3 then Some (bytesCase data wt i m (λ b, mkWDoc id ct b tk lb fi fo re))
  else if num =? 4 then Some (msgCase data wt i m Tok_Unmarshal zeroTok (λ t, mkWDoc id ct at_ (tk ++ [t]) lb fi fo re))
  else if num =? 5 then Some (strCase data wt i m (λ s, mkWDoc id ct at_ tk (lb ++ [s]) fi fo re))
  else if num =? 6 then Some (bytesCase data wt i m (λ b, mkWDoc id ct at_ tk lb b fo re))
  else if num =? 7 then Some (flagCase data wt i m (λ b, mkWDoc id ct at_ tk lb fi b re))
  else None.
Definition Doc_keep (b : bytes) (m : WDoc) : WDoc :=
  mkWDoc (wdId m) (wdContent m) (wdAttri m) (wdTokens m) (wdLabels m) (wdFields m) (wdForce m) (wdRest m ++ b).
Definition Doc_Unmarshal := unmarshal Doc_field Doc_keep.

(** doc.pb.go:2283-2362 *)
Definition Del_field (num wt : Z) (data : bytes) (i : Z) (m : WDel) : option (rd WDel) :=
  if num =? 1 then Some (strCase data wt i m (λ s, mkWDel s (wlRest m))) else None.
Definition Del_keep (b : bytes) (m : WDel) : WDel := mkWDel (wlId m) (wlRest m ++ b).
Definition Del_Unmarshal := unmarshal Del_field Del_keep.

(** doc.pb.go:2363-2432 *)
Definition Reply_field (num wt : Z) (data : bytes) (i : Z) (m : WReply) : option (rd WReply) :=
  if num =? 1 then Some (numCase data wt i m int32 (λ v, mkWReply v (wrRest m))) else None.
Definition Reply_keep (b : bytes) (m : WReply) : WReply := mkWReply (wrResult m) (wrRest m ++ b).
Definition Reply_Unmarshal := unmarshal Reply_field Reply_keep.

(** doc.pb.go:3333-3470 *)
Definition Expr_field (num wt : Z) (data : bytes) (i : Z) (m : WExpr) : option (rd WExpr) :=
  let '(mkWExpr mu sh no re) := m in
  if num =? 1 then Some (strCase data wt i m (λ s, mkWExpr (mu ++ [s]) sh no re))
  else if num =? 2 then Some (strCase data wt i m (λ s, mkWExpr mu (sh ++ [s]) no re))
  else if num =? 3 then Some (strCase data wt i m (λ s, mkWExpr mu sh (no ++ [s]) re))
  else None.
Definition Expr_keep (b : bytes) (m : WExpr) : WExpr := mkWExpr (weMust m) (weShould m) (weNotIn m) (weRest m ++ b).
Definition Expr_Unmarshal := unmarshal Expr_field Expr_keep.
Definition zeroExpr : WExpr := mkWExpr [] [] [] [].

(** doc.pb.go:3189-3332; a second Expr is decoded into the first one *)
Definition Logic_field (num wt : Z) (data : bytes) (i : Z) (m : WLogic) : option (rd WLogic) :=
  let '(mkWLogic mu sh no ex re) := m in
  if num =? 1 then Some (flagCase data wt i m (λ b, mkWLogic b sh no ex re))
  else if num =? 2 then Some (flagCase data wt i m (λ b, mkWLogic mu b no ex re))
  else if num =? 3 then Some (flagCase data wt i m (λ b, mkWLogic mu sh b ex re))
  else if num =? 4 then Some (msgCase data wt i m Expr_Unmarshal (default zeroExpr ex) (λ e, mkWLogic mu sh no (Some e) re))
  else None.
Definition Logic_keep (b : bytes) (m : WLogic) : WLogic := mkWLogic (wgMust m) (wgShould m) (wgNotIn m) (wgExpr m) (wgRest m ++ b).
Definition Logic_Unmarshal := unmarshal Logic_field Logic_keep.
Definition zeroLogic : WLogic := mkWLogic false false false None [].

(** doc.pb.go:2614-2693: the key and value of a map entry; lengths are checked against the
    end of the message only, wire types not at all *)
Fixpoint entry (fuel : nat) (data : bytes) (post i : Z) (k : string) (v : bool) : rd (string * bool) :=
  match fuel with
  | O => More
  | S f =>
    if i <? post then
      match readNum u64 data i with
      | Got wire j =>
        let num := int32 (Z.shiftr wire 3) in
        if num =? 1 then
          match readBytes u64 data j with Got b p => entry f data post p (stringOf b) v | Bad _ => Bad (k, v) | Boom => Boom | More => More end
        else if num =? 2 then
          match readNum int64 data j with Got x p => entry f data post p k (negb (x =? 0)) | Bad _ => Bad (k, v) | Boom => Boom | More => More end
        else
          match zslice data i (zlen data) with
          | None => Boom
          | Some d =>
            match skipDoc d with
            | Got _ n =>
              if n <? 0 then Bad (k, v)
              else let p := int64 (i + n) in if post <? p then Bad (k, v) else entry f data post p k v
            | Bad _ => Bad (k, v) | Boom => Boom | More => More
            end
          end
      | Bad _ => Bad (k, v) | Boom => Boom | More => More
      end
    else Got (k, v) i
  end.
(** doc.pb.go:2433-2750; after a map entry reading goes on at [post] *)
Definition Search_field (num wt : Z) (data : bytes) (i : Z) (m : WSearch) : option (rd WSearch) :=
  let '(mkWSearch id qu of_ mx ti ds lo re) := m in
  if num =? 1 then Some (strCase data wt i m (λ s, mkWSearch s qu of_ mx ti ds lo re))
  else if num =? 2 then Some (strCase data wt i m (λ s, mkWSearch id s of_ mx ti ds lo re))
  else if num =? 3 then Some (numCase data wt i m int32 (λ v, mkWSearch id qu v mx ti ds lo re))
  else if num =? 4 then Some (numCase data wt i m int32 (λ v, mkWSearch id qu of_ v ti ds lo re))
  else if num =? 5 then Some (strCase data wt i m (λ s, mkWSearch id qu of_ mx s ds lo re))
  else if num =? 6 then Some (
    if wt =? 2 then
      match readNum int64 data i with
      | Got len j =>
        if len <? 0 then Bad m
        else let post := int64 (j + len) in
          if zlen data <? post then Bad m
          else match entry (S (length data)) data post j "" false with
               | Got (k, v) _ => Got (mkWSearch id qu of_ mx ti (<[k := v]> ds) lo re) post
               | Bad _ => Bad m | Boom => Boom | More => More
               end
      | Bad _ => Bad m | Boom => Boom | More => More
      end
    else Bad m)
  else if num =? 7 then Some (msgCase data wt i m Logic_Unmarshal (default zeroLogic lo) (λ g, mkWSearch id qu of_ mx ti ds (Some g) re))
  else None.
Definition Search_keep (b : bytes) (m : WSearch) : WSearch :=
  mkWSearch (wsId m) (wsQuery m) (wsOffset m) (wsMax m) (wsTime m) (wsDocIds m) (wsLogic m) (wsRest m ++ b).
Definition Search_Unmarshal := unmarshal Search_field Search_keep.

(** doc.pb.go:3032-3188 *)
Definition Attri_field (num wt : Z) (data : bytes) (i : Z) (m : WAttri) : option (rd WAttri) :=
  let '(mkWAttri ti au tm ts re) := m in
  if num =? 1 then Some (strCase data wt i m (λ s, mkWAttri s au tm ts re))
  else if num =? 2 then Some (strCase data wt i m (λ s, mkWAttri ti s tm ts re))
  else if num =? 3 then Some (strCase data wt i m (λ s, mkWAttri ti au s ts re))
  else if num =? 4 then Some (numCase data wt i m int64 (λ v, mkWAttri ti au tm v re))
  else None.
Definition Attri_keep (b : bytes) (m : WAttri) : WAttri := mkWAttri (waTitle m) (waAuthor m) (waTime m) (waTs m) (waRest m ++ b).
Definition Attri_Unmarshal := unmarshal Attri_field Attri_keep.
Definition zeroAttri : WAttri := mkWAttri "" "" "" 0 [].

(** doc.pb.go:2890-3031 *)
Definition Text_field (num wt : Z) (data : bytes) (i : Z) (m : WText) : option (rd WText) :=
  let '(mkWText id ct at_ re) := m in
  if num =? 1 then Some (strCase data wt i m (λ s, mkWText s ct at_ re))
  else if num =? 2 then Some (strCase data wt i m (λ s, mkWText id s at_ re))
  else if num =? 3 then Some (msgCase data wt i m Attri_Unmarshal (default zeroAttri at_) (λ a, mkWText id ct (Some a) re))
  else None.
Definition Text_keep (b : bytes) (m : WText) : WText := mkWText (wxId m) (wxContent m) (wxAttri m) (wxRest m ++ b).
Definition Text_Unmarshal := unmarshal Text_field Text_keep.
Definition zeroText : WText := mkWText "" "" None [].

(** doc.pb.go:2751-2889 *)
Definition Answer_field (num wt : Z) (data : bytes) (i : Z) (m : WAnswer) : option (rd WAnswer) :=
  let '(mkWAnswer co le ts ds re) := m in
  if num =? 1 then Some (numCase data wt i m int32 (λ v, mkWAnswer v le ts ds re))
  else if num =? 2 then Some (numCase data wt i m int32 (λ v, mkWAnswer co v ts ds re))
  else if num =? 3 then Some (numCase data wt i m int64 (λ v, mkWAnswer co le v ds re))
  else if num =? 4 then Some (msgCase data wt i m Text_Unmarshal zeroText (λ t, mkWAnswer co le ts (ds ++ [t]) re))
  else None.
Definition Answer_keep (b : bytes) (m : WAnswer) : WAnswer :=
  mkWAnswer (wnCode m) (wnLen m) (wnTimestamp m) (wnDocs m) (wnRest m ++ b).
Definition Answer_Unmarshal := unmarshal Answer_field Answer_keep.

(** Reset (doc.pb.go:35 and the like): what gRPC and proto.Unmarshal decode into *)
Definition zeroHeart : WHeart := mkWHeart 0 [].
Definition zeroDoc : WDoc := mkWDoc "" "" [] [] [] [] false [].
Definition zeroDel : WDel := mkWDel "" [].
Definition zeroReply : WReply := mkWReply 0 [].
Definition zeroSearch : WSearch := mkWSearch "" "" 0 0 "" ∅ None [].
Definition zeroAnswer : WAnswer := mkWAnswer 0 0 0 [] [].
