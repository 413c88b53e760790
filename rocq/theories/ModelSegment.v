(** From the data of an index request to the index entry of the document: segment.go,
    stop_tokens.go; and from the text of a search request to its search words:
    engine.go Segment and Tokens.

    Simplifications: token counts are unbounded integers (Go: int); a location slice
    given by the client is copied (Go shares it with the index). *)
From Verif Require Export ModelRoute.

(** types/doc_index_data.go:18-51 TokenData, DocData *)
Record TokenData := mkTok { tkText : string; tkLocs : list Z }.
Record DocData := mkData {
  ddContent : string; ddAttri : Iface; ddTokens : list TokenData; ddLabels : list string; ddFields : Iface }.

(** types/engine_init_options.go:46-110: the options read here.  GseDict, GseMode and Hmm
    select the behaviour of the external segmenter. *)
Record SegOpts := mkSegOpts { NotUseGse : bool; Using : Z; PinYinOpt : bool; UsePhrase : bool }.

(** External functions: strings.ToLower, strings.Split(_, ""), gse ModeSegment (text and
    start of every segment), gse Cut / CutSearch, gpy.LazyConvert, phrase.Pinyin, and
    the order in which [range] visits a map. *)
Notation TMap := (gmap string (list Z)).   (* segment.go:28 *)
Record Ext := mkExt {
  toLower : string → string;
  explode : string → list string;
  modeSegment : string → list (string * Z);
  cut : string → list string;
  lazyConvert : string → list string;
  phrasePinyin : string → list string;
  rangeMap : TMap → list (string * list Z) }.

(** strings.Split(s, " ") *)
Definition space : Ascii.ascii := Ascii.ascii_of_nat 32.
Fixpoint splitSpace (s : string) : list string :=
  match s with
  | EmptyString => [""]
  | String c r =>
    if Ascii.eqb c space then "" :: splitSpace r
    else match splitSpace r with
         | w :: ws => String c w :: ws
         | [] => [String c ""]
         end
  end.

(** stop_tokens.go:31-50 StopTokens.Init, on the lines delivered by the scanner *)
Definition stopInit (lines : list string) : gset string :=
  foldl (λ st text, if seqb text "" then st else {[text]} ∪ st) ∅ lines.
(** engine.go:294-303: only called if the segmenter is used; until then the map is nil *)
Definition engineStop (o : SegOpts) (lines : list string) : gset string :=
  if NotUseGse o then ∅ else stopInit lines.

Section Segment.
  Variable X : Ext.
  Variable stop : gset string.
  Variable o : SegOpts.

  (** stop_tokens.go:53-56 *)
  Definition IsStopToken (token : string) : bool := bool_decide (token ∈ stop).

  (** segment.go:49-52, 55-58, 66-69: count the word and note its position *)
  Definition addPos (w : string) (st : TMap * Z) : TMap * Z :=
    if IsStopToken w then st
    else (<[w := default [] (st.1 !! w) ++ [st.2 + 1]]> st.1, st.2 + 1).

  (** segment.go:60-71: the inner loop over the words after the current one *)
  Fixpoint moreLoop (rest : list string) (splitsStr : string) (st : TMap * Z) : TMap * Z :=
    match rest with
    | [] => st
    | w :: rest' => let splitsStr' := String.append splitsStr w in moreLoop rest' splitsStr' (addPos splitsStr' st)
    end.

  (** segment.go:47-74: [l] is strData[i:], [left] is num - i *)
  Fixpoint splitLoop (left : nat) (l : list string) (splitStr : string) (st : TMap * Z) : option (TMap * Z) :=
    match left with
    | O => Some st
    | S left' =>
      match l with
      | [] => None   (* index out of range *)
      | w :: rest =>
        if seqb w "" then splitLoop left' rest splitStr st
        else
          let st1 := addPos w st in
          let splitStr' := String.append splitStr w in
          let st2 := addPos splitStr' st1 in
          let st3 := if Using o =? 6 then moreLoop rest "" st2 else st2 in
          splitLoop left' rest splitStr' st3
      end
    end.
  (** segment.go:40-77 ForSplitData *)
  Definition ForSplitData (strData : list string) (num : Z) : option (TMap * Z) :=
    splitLoop (Z.to_nat num) strData "" (∅, 0).

  (** segment.go:117-121, 144-148, 176-180, 222-226: the user tokens *)
  Definition addTokens (tokens : list TokenData) (m : TMap) : TMap :=
    foldl (λ m t, if IsStopToken (tkText t) then m else <[tkText t := tkLocs t]> m) m tokens.
  (** segment.go:93-98, 137-142, 160-165: the words of the segmenter *)
  Definition addSegments (segments : list (string * Z)) (m : TMap) : TMap :=
    foldl (λ m sg, if IsStopToken sg.1 then m else <[sg.1 := default [] (m !! sg.1) ++ [sg.2]]> m) m segments.

  (** segment.go:192-208 defaultTokens *)
  Definition defaultTokens (content : string) : option (TMap * Z) :=
    let strData := splitSpace content in
    let num := zlen strData in
    if 0 <? num then
      '(tokenMap, numToken) ← ForSplitData strData num; Some (tokenMap ∪ ∅, 0 + numToken)
    else Some (∅, 0).

  (** segment.go:79-126 splitData *)
  Definition splitData (d : DocData) : option (TMap * Z) :=
    '(m, n) ←
      (if seqb (ddContent d) "" then Some (∅, 0)
       else
         let content := toLower X (ddContent d) in
         let '(m0, n0) :=
           if Using o =? 3 then (addSegments (modeSegment X content) ∅, zlen (modeSegment X content))
           else (∅, 0) in
         if Using o =? 4 then defaultTokens content
         else
           let strData := explode X content in
           '(tokenMap, numToken) ← ForSplitData strData (zlen strData);
           Some (tokenMap ∪ m0, n0 + numToken));
    Some (addTokens (ddTokens d) m, n + zlen (ddTokens d)).

  (** segment.go:128-190 segmenterData *)
  Definition segmenterData (d : DocData) : option (TMap * Z) :=
    let nil := seqb (ddContent d) "" in
    let segments := modeSegment X (ddContent d) in
    if (Using o =? 0) && negb nil then
      Some (addTokens (ddTokens d) (addSegments segments ∅), zlen segments + zlen (ddTokens d))
    else if (Using o =? 1) && negb nil then
      Some (addSegments segments ∅, zlen segments)
    else if (Using o =? 2) || (((Using o =? 1) || (Using o =? 3)) && nil) then
      Some (addTokens (ddTokens d) ∅, zlen (ddTokens d))
    else splitData d.

  (** engine.go:479-497 Segment *)
  Definition Segment (content : string) : list string :=
    filter (λ w, IsStopToken w = false) (cut X content).

  (** segment.go:335-346: the pieces of the text and their prefixes *)
  Fixpoint pinPieces (l : list string) (splitStr : string) : list string :=
    match l with
    | [] => []
    | w :: rest =>
      let splitStr' := if seqb w "" then splitStr else String.append splitStr w in
      (if negb (seqb w "") && negb (IsStopToken w) then [w] else []) ++
      (if IsStopToken splitStr' then [] else [splitStr']) ++ pinPieces rest splitStr'
    end.
  (** segment.go:359-375: the prefixes of the transcription and of its initials *)
  Fixpoint pinSyllables (py : list string) (pyStr str : string) : list string :=
    match py with
    | [] => []
    | p :: rest =>
      let pyStr' := String.append pyStr p in
      let str' := String.append str (substring 0 1 p) in
      (if IsStopToken pyStr' then [] else [pyStr']) ++
      (if seqb p "" then pinSyllables rest pyStr' str
       else (if IsStopToken str' then [] else [str']) ++ pinSyllables rest pyStr' str')
    end.
  (** segment.go:317-378 PinYin *)
  Definition PinYin (hans : string) : list string :=
    if UsePhrase o then phrasePinyin X hans
    else
      pinPieces (explode X hans) "" ++
      (if NotUseGse o then [] else filter (λ w, IsStopToken w = false) (Segment hans)) ++
      pinSyllables (lazyConvert X hans) "" "".

  (** segment.go:235-240: every string gets its own index as its only location *)
  Fixpoint addPin (i : Z) (l : list string) (m : TMap) : TMap :=
    match l with
    | [] => m
    | w :: l' => addPin (i + 1) l' (if IsStopToken w then m else <[w := [i]]> m)
    end.

  (** segment.go:210-246 makeTokensMap *)
  Definition makeTokensMap (d : DocData) : option (TMap * Z) :=
    '(m, n) ←
      (if negb (NotUseGse o && (Using o =? 0)) then segmenterData d
       else
         '(m0, n0) ← (if seqb (ddContent d) "" then Some (∅, 0) else defaultTokens (toLower X (ddContent d)));
         Some (addTokens (ddTokens d) m0, n0 + zlen (ddTokens d)));
    if PinYinOpt o then
      let strArr := PinYin (ddContent d) in Some (addPin 0 strArr m, n + zlen strArr)
    else Some (m, n).

  (** segment.go:265-279: the labels *)
  Definition addLabel (m : TMap) (label : string) : TMap :=
    if negb (NotUseGse o) && IsStopToken label then m
    else match m !! label with Some _ => m | None => <[label := []]> m end.

  (** segment.go:261-297: the entry handed to the indexer *)
  Definition segDoc (docId : string) (d : DocData) : option DocIndex :=
    '(m, n) ← makeTokensMap d;
    let m' := foldl addLabel m (ddLabels d) in
    Some (mkDoc docId (f32_of_Z n)
            ((λ kv, mkKw kv.1 (f32_of_Z (zlen kv.2)) kv.2) <$> rangeMap X m')).

  (** engine.go:376-416: the call Index(docId, d, force), see ModelRoute.v *)
  Definition indexCall (docId : string) (d : DocData) (force : bool) : option ecall :=
    doc ← segDoc docId d; Some (EIndex doc (ddFields d) (ddContent d) (ddAttri d) force).

  (** engine.go:500-524 Tokens *)
  Definition Tokens (text : string) (reqTokens : list string) : list string :=
    if seqb text "" then reqTokens
    else
      let reqText := toLower X text in
      (if NotUseGse o then splitSpace reqText else Segment reqText) ++ reqTokens.
End Segment.
