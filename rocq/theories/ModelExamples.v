(** Programs that come with the engine: examples/weibo/custom_scoring_criteria.go,
    examples/codelab/search_server.go, examples/pinyin_weibo/main.go.

    Left out: flags, opening of files, logging, the HTTP side of the two servers (what they
    ask the engine for is here), signals.  The files are given by their contents. *)
From Coq Require Import Floats.SpecFloat.
From stdpp Require Export pretty.
From Verif Require Export ModelServer ModelWhole ModelEngine ModelScoring.
From Verif Require ModelStart.

(** * Reading *)
(** strings.Split(s, sep) for a separator that is not empty; [skip]: bytes of a separator
    that are still to be passed over *)
Fixpoint splitFrom (sep : string) (skip : nat) (s : string) : list string :=
  match s with
  | EmptyString => [""]
  | String c r =>
    match skip with
    | S k => splitFrom sep k r
    | O =>
      if String.prefix sep s then "" :: splitFrom sep (String.length sep - 1) r
      else match splitFrom sep 0 r with
           | w :: l => String c w :: l
           | [] => [String c ""]
           end
    end
  end.
Definition Split (s sep : string) : list string := splitFrom sep 0 s.

(** bufio.Scanner with ScanLines (custom_scoring_criteria.go:123-126): the lines without
    their ends; a last line that is empty does not count.  The scan ends, with an error that
    the program does not ask for, before a line that does not fit into the buffer of 65536
    bytes. *)
Definition newline : string := String (Ascii.ascii_of_nat 10) "".
Definition returnSign : Ascii.ascii := Ascii.ascii_of_nat 13.
Fixpoint dropCR (s : string) : string :=
  match s with
  | EmptyString => ""
  | String c EmptyString => if Ascii.eqb c returnSign then "" else s
  | String c r => String c (dropCR r)
  end.
Fixpoint scanTokens (pieces : list string) : list string :=
  match pieces with
  | [] => []
  | [l] => if seqb l "" then [] else if strlen l <? 65536 then [dropCR l] else []
  | l :: rest => if strlen l <? 65536 then dropCR l :: scanTokens rest else []
  end.
Definition scanLines (file : string) : list string := scanTokens (Split file newline).

(** strconv.ParseUint(s, 10, bits) with its error ignored; [mx] = 2^bits - 1.  A syntax error
    gives 0, a range error [mx], whichever is found first (see [parseDigits] in
    ModelServer.v). *)
Fixpoint uintDigits (mx n : Z) (s : string) : Z :=
  match s with
  | EmptyString => n
  | String c s' =>
    match digit c with
    | None => 0
    | Some d => if n * 10 + d >? mx then mx else uintDigits mx (n * 10 + d) s'
    end
  end.
Definition ParseUint (mx : Z) (s : string) : Z := uintDigits mx 0 s.

(** * examples/weibo *)
(** custom_scoring_criteria.go:64-74 WeiboScoringFields *)
Record WSF := mkWSF { wsTime : Z; wsReposts : Z; wsLen : Z }.

(** custom_scoring_criteria.go:124-143: the lines with ten fields and a text *)
Definition readWeibo (lines : list string) : list (string * WSF) :=
  omap (λ l,
    match Split l "||||" with
    | [_; ts; _; _; reposts; _; _; _; _; text] =>
      if seqb text "" then None
      else Some (text, mkWSF (ParseUint (2^32 - 1) ts) (ParseUint (2^32 - 1) reposts) (strlen text))
    | _ => None
    end) lines.

Section Weibo.
  (** int(x) for floats that are no numbers, infinite or out of range: the result depends on
      the machine *)
  Variable cvt : F → Z.
  (** the fields as an interface value, and fields.(WeiboScoringFields): None = another type *)
  Variable boxW : WSF → Iface.
  Variable asWSF : Iface → option WSF.

  (** int(x): the fraction is dropped *)
  Definition f_int (x : F) : Z :=
    match x with
    | S754_zero _ => 0
    | S754_finite s m e =>
      let v := if 0 <=? e then Zpos m * 2 ^ e else Zpos m / 2 ^ (- e) in
      if v <? 2 ^ 63 then (if s then - v else v) else cvt x
    | _ => cvt x
    end.

  (** custom_scoring_criteria.go:81-96 Score *)
  Definition weiboScore (doc : IndexedDoc) (fields : Iface) : list F :=
    if TokenProximity doc >? 150 then []
    else match asWSF fields with
         | None => []
         | Some wsf =>
           [f32_of_Z (wsTime wsf / 86400); f32_of_Z (f_int (BM25 doc)); f32_of_Z (wsReposts wsf); f32_of_Z (wsLen wsf)]
         end.

  Variable X : Ext.
  Variable stop : gset string.
  Variable so : SegOpts.

  (** custom_scoring_criteria.go:148-153: what is indexed for the text number [i] *)
  Definition weiboData (w : string * WSF) : DocData := mkData w.1 INil [] [] (boxW w.2).
  Definition weiboCall (i : nat) (w : string * WSF) : option wcall :=
    doc ← segDoc X stop so (pretty i) (weiboData w); Some (WIndex doc (weiboData w) false).
  (** None = a segmenter panics *)
  Fixpoint weiboCalls (i : nat) (ws : list (string * WSF)) : option (list wcall) :=
    match ws with
    | [] => Some []
    | w :: ws' => c ← weiboCall i w; cs ← weiboCalls (S i) ws'; Some (c :: cs)
    end.
  (** custom_scoring_criteria.go:146-154: the calls of the main goroutine *)
  Definition weiboProg (ws : list (string * WSF)) : option (list wcall) :=
    cs ← weiboCalls 0 ws; Some (cs ++ [WFlush]).

  (** custom_scoring_criteria.go:56-60, 159: the request; Init puts the address of [options]
      into DefRankOpts, which Search uses as the request has no rank options *)
  Definition weiboReq (query : string) : SearchReq :=
    mkReq (Tokens X stop so query []) [] (mkLogic false false false [] [] []) None
      (mkRankOpts weiboScore false 0 100) 0 false false.
  (** custom_scoring_criteria.go:159-166: the lines printed for the answer; None = a panic *)
  Definition weiboShow (ws : list (string * WSF)) (resp : SearchResp) : option (list (list F * string)) :=
    resp' ← ModelStart.SearchDoc false resp;
    docs ← rsDocs resp';
    mapM (λ h, w ← zget ws (Atoi (sdDocId h)); Some (sdScores h, w.1)) docs.
End Weibo.

(** * examples/codelab *)
(** search_server.go:102-105 WeiboScoringFields *)
Record CSF := mkCSF { csTime : Z; csReposts : Z }.
(** search_server.go:45-52 Weibo *)
Record CWeibo := mkCW { cwId : string; cwTime : Z; cwUser : string; cwReposts : Z; cwText : string }.

Section Codelab.
  Variable asCSF : Iface → option CSF.
  (** search_server.go:112-127 Score; the constants are exact in float32 *)
  Definition codelabScore (doc : IndexedDoc) (fields : Iface) : list F :=
    match asCSF fields with
    | None => []
    | Some wsf =>
      [ if TokenProximity doc >? 2 then f32_div (f32_of_Z 1) (f32_of_Z (TokenProximity doc)) else f32_of_Z 1;
        f32_of_Z (csTime wsf / (86400 * 3));
        f32_mul (BM25 doc) (f32_add (f32_of_Z 1) (f32_div (f32_of_Z (csReposts wsf)) (f32_of_Z 10000))) ]
    end.
  (** search_server.go:65-80: the table of the lines with ten fields *)
  Definition readCodelab (lines : list string) : gmap string CWeibo :=
    foldl (λ m l,
      match Split l "||||" with
      | [id; ts; _; user; reposts; _; _; _; _; text] =>
        <[id := mkCW id (ParseUint (2^64 - 1) ts) user (ParseUint (2^64 - 1) reposts) text]> m
      | _ => m
      end) ∅ lines.

  Variable boxC : CSF → Iface.
  Variable X : Ext.
  Variable stop : gset string.
  Variable so : SegOpts.
  (** search_server.go:83-92: what is indexed for an entry of the table *)
  Definition codelabData (w : CWeibo) : DocData := mkData (cwText w) INil [] [] (boxC (mkCSF (cwTime w) (cwReposts w))).
  Definition codelabCall (kv : string * CWeibo) : option wcall :=
    doc ← segDoc X stop so kv.1 (codelabData kv.2); Some (WIndex doc (codelabData kv.2) false).
  (** search_server.go:82-95: the calls of indexWeibo; [kvs]: the table in the order in which
      range visits it.  None = a segmenter panics *)
  Definition codelabProg (kvs : list (string * CWeibo)) : option (list wcall) :=
    cs ← mapM codelabCall kvs; Some (cs ++ [WFlush]).
  (** search_server.go:141-148: the request of JsonRpcServer *)
  Definition codelabReq (query : string) : SearchReq :=
    mkReq (Tokens X stop so query []) [] (mkLogic false false false [] [] []) None
      (mkRankOpts codelabScore false 0 100) 0 false false.
  (** search_server.go:151-159: the documents of the answer; an id that is not in the table
      gives a Weibo of zeros.  The handler reads the table without a lock, while indexWeibo
      may still fill it (a data race, not modelled); here the table is complete.  None = a
      panic *)
  Definition codelabShow (wbs : gmap string CWeibo) (resp : SearchResp) : option (list CWeibo) :=
    resp' ← ModelStart.SearchDoc false resp;
    docs ← rsDocs resp';
    Some (map (λ h, let wb := default (mkCW "" 0 "" 0 "") (wbs !! sdDocId h) in
                mkCW (cwId wb) (cwTime wb) (cwUser wb) (cwReposts wb) (sdContent h)) docs).
End Codelab.

(** * examples/pinyin_weibo *)
Section Pinyin.
  Variable X : Ext.
  Variable stop : gset string.
  Variable so : SegOpts.
  (** main.go:65-92: the calls of Index made for the lines that br.ReadLine returns.
      [tokenDatas] is declared before the loop. *)
  Fixpoint pinLoop (lines : list string) (tokenDatas : list TokenData) (index : nat) : list (string * DocData) :=
    match lines with
    | [] => []
    | buf :: rest =>
      let tokenDatas' := tokenDatas ++ ((λ t, mkTok t []) <$> PinYin X stop so buf) in
      (pretty index, mkData "" INil tokenDatas' [] (IStr buf)) ::
      (pretty (index + 1)%nat, mkData buf INil tokenDatas' [] INil) :: pinLoop rest tokenDatas' (index + 2)
    end.
  Definition pinIndex (lines : list string) : list (string * DocData) := pinLoop lines [] 1.
End Pinyin.
