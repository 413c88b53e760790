(** The encoding of messages as the protocol buffers documentation and
    net/grpc/riot-pb/doc.proto describe it, by arithmetic on numbers and lists and without
    the readers and writers of the model. *)
From Verif Require Export ModelWire.

(** * Numbers: seven bits per byte, the lowest first, 128 added to all but the last *)
Fixpoint groups (more : nat) (v : Z) : bytes :=
  match more with
  | O => [v]
  | S k => if v <? 128 then [v] else (v `mod` 128 + 128) :: groups k (v / 128)
  end.
Definition varint (v : Z) : bytes := groups 9 v.

(** * A message is a sequence of numbered fields *)
Inductive payload := Num (v : Z) | Len (b : bytes) | Fix64 (b : bytes) | Fix32 (b : bytes).
Definition wtype (p : payload) : Z := match p with Num _ => 0 | Fix64 _ => 1 | Len _ => 2 | Fix32 _ => 5 end.
Definition body (p : payload) : bytes :=
  match p with Num v => varint v | Len b => varint (zlen b) ++ b | Fix64 b | Fix32 b => b end.
Definition fieldT : Type := Z * payload.
Definition record (f : fieldT) : bytes := varint (8 * f.1 + wtype f.2) ++ body f.2.
Definition wire (fs : list fieldT) : bytes := concat (map record fs).
(** what can be written as a field *)
Definition proper (f : fieldT) : Prop :=
  1 <= f.1 < 2^29 ∧
  match f.2 with Num v => 0 <= v < 2^64 | Len _ => True | Fix64 b => zlen b = 8 | Fix32 b => zlen b = 4 end.

(** * doc.proto: each message as fields; empty values are left out *)
Definition num (n v : Z) : list fieldT := if decide (v = 0) then [] else [(n, Num (v `mod` 2^64))].
Definition flag (n : Z) (b : bool) : list fieldT := if b then [(n, Num 1)] else [].
Definition raw (n : Z) (b : bytes) : list fieldT := if decide (b = []) then [] else [(n, Len b)].
Definition str (n : Z) (s : string) : list fieldT := raw n (bytesOf s).
Definition strs (n : Z) (l : list string) : list fieldT := map (λ s, (n, Len (bytesOf s))) l.
Definition msgs (n : Z) (l : list bytes) : list fieldT := map (λ b, (n, Len b)) l.
Definition msg (n : Z) (o : option bytes) : list fieldT := match o with Some b => [(n, Len b)] | None => [] end.

Definition heart_wire (m : WHeart) : bytes := wire (num 1 (whMsg m)) ++ whRest m.
Definition tok_wire (m : WTok) : bytes :=
  wire (str 1 (wtText m) ++ raw 2 (concat (map (λ v, varint (v `mod` 2^64)) (wtLocs m)))) ++ wtRest m.
Definition doc_wire (m : WDoc) : bytes :=
  wire (str 1 (wdId m) ++ str 2 (wdContent m) ++ raw 3 (wdAttri m) ++ msgs 4 (map tok_wire (wdTokens m)) ++
        strs 5 (wdLabels m) ++ raw 6 (wdFields m) ++ flag 7 (wdForce m)) ++ wdRest m.
Definition del_wire (m : WDel) : bytes := wire (str 1 (wlId m)) ++ wlRest m.
Definition reply_wire (m : WReply) : bytes := wire (num 1 (wrResult m)) ++ wrRest m.
Definition expr_wire (m : WExpr) : bytes :=
  wire (strs 1 (weMust m) ++ strs 2 (weShould m) ++ strs 3 (weNotIn m)) ++ weRest m.
Definition logic_wire (m : WLogic) : bytes :=
  wire (flag 1 (wgMust m) ++ flag 2 (wgShould m) ++ flag 3 (wgNotIn m) ++ msg 4 (expr_wire <$> wgExpr m)) ++ wgRest m.
(** a map is a repeated message with the key as field 1 and the value as field 2, both
    always written, in some order [es] *)
Definition entry_wire (e : string * bool) : bytes :=
  wire [(1, Len (bytesOf e.1)); (2, Num (if e.2 then 1 else 0))].
Definition search_wire (es : list (string * bool)) (m : WSearch) : bytes :=
  wire (str 1 (wsId m) ++ str 2 (wsQuery m) ++ num 3 (wsOffset m) ++ num 4 (wsMax m) ++ str 5 (wsTime m) ++
        msgs 6 (map entry_wire es) ++ msg 7 (logic_wire <$> wsLogic m)) ++ wsRest m.
Definition attri_wire (m : WAttri) : bytes :=
  wire (str 1 (waTitle m) ++ str 2 (waAuthor m) ++ str 3 (waTime m) ++ num 4 (waTs m)) ++ waRest m.
Definition text_wire (m : WText) : bytes :=
  wire (str 1 (wxId m) ++ str 2 (wxContent m) ++ msg 3 (attri_wire <$> wxAttri m)) ++ wxRest m.
Definition answer_wire (m : WAnswer) : bytes :=
  wire (num 1 (wnCode m) ++ num 2 (wnLen m) ++ num 3 (wnTimestamp m) ++ msgs 4 (map text_wire (wnDocs m))) ++ wnRest m.

(** * What the fields of a message mean, in whatever order they come *)
(** [reads known takes keep m b m']: the bytes [b] change the message [m] to [m'];
    [takes]: what a known field does; fields with other numbers are kept as they are *)
Inductive reads {M} (known : list Z) (takes : fieldT → M → M → Prop) (keep : bytes → M → M) : M → bytes → M → Prop :=
| reads_end m : reads known takes keep m [] m
| reads_field f m m1 b m2 :
    proper f → takes f m m1 → reads known takes keep m1 b m2 → reads known takes keep m (record f ++ b) m2
| reads_other f m b m2 :
    proper f → f.1 ∉ known → reads known takes keep (keep (record f) m) b m2 → reads known takes keep m (record f ++ b) m2.
Global Arguments reads {M} _ _ _ _ _ _.
Global Arguments reads_end {M} _ _ _ _.
Global Arguments reads_field {M} _ _ _ _ _ _ _ _.
Global Arguments reads_other {M} _ _ _ _ _ _ _.

(** int32 numbers are cut to 32 bits, int64 numbers taken as two's complement, all
    other values of a bool than 0 are true *)
Inductive heart_takes : fieldT → WHeart → WHeart → Prop :=
| heart_msg v x re : heart_takes (1, Num v) (mkWHeart x re) (mkWHeart (int32 v) re).
Definition heart_reads := reads [1] heart_takes (λ b m, mkWHeart (whMsg m) (whRest m ++ b)).

(** a location alone, or several in one field *)
Inductive tok_takes : fieldT → WTok → WTok → Prop :=
| tok_text b x ls re : tok_takes (1, Len b) (mkWTok x ls re) (mkWTok (stringOf b) ls re)
| tok_loc v x ls re : tok_takes (2, Num v) (mkWTok x ls re) (mkWTok x (ls ++ [int32 v]) re)
| tok_locs vs x ls re :
    Forall (λ v, 0 <= v < 2^64) vs →
    tok_takes (2, Len (concat (map varint vs))) (mkWTok x ls re) (mkWTok x (ls ++ map int32 vs) re).
Definition tok_reads := reads [1; 2] tok_takes (λ b m, mkWTok (wtText m) (wtLocs m) (wtRest m ++ b)).

(** scalars: the last one counts; repeated fields: appended *)
Inductive doc_takes : fieldT → WDoc → WDoc → Prop :=
| doc_id b x ct at_ tk lb fi fo re :
    doc_takes (1, Len b) (mkWDoc x ct at_ tk lb fi fo re) (mkWDoc (stringOf b) ct at_ tk lb fi fo re)
| doc_content b x id at_ tk lb fi fo re :
    doc_takes (2, Len b) (mkWDoc id x at_ tk lb fi fo re) (mkWDoc id (stringOf b) at_ tk lb fi fo re)
| doc_attri b x id ct tk lb fi fo re :
    doc_takes (3, Len b) (mkWDoc id ct x tk lb fi fo re) (mkWDoc id ct b tk lb fi fo re)
| doc_token b t id ct at_ tk lb fi fo re :
    tok_reads (mkWTok "" [] []) b t →
    doc_takes (4, Len b) (mkWDoc id ct at_ tk lb fi fo re) (mkWDoc id ct at_ (tk ++ [t]) lb fi fo re)
| doc_label b id ct at_ tk lb fi fo re :
    doc_takes (5, Len b) (mkWDoc id ct at_ tk lb fi fo re) (mkWDoc id ct at_ tk (lb ++ [stringOf b]) fi fo re)
| doc_fields b x id ct at_ tk lb fo re :
    doc_takes (6, Len b) (mkWDoc id ct at_ tk lb x fo re) (mkWDoc id ct at_ tk lb b fo re)
| doc_force v x id ct at_ tk lb fi re :
    doc_takes (7, Num v) (mkWDoc id ct at_ tk lb fi x re) (mkWDoc id ct at_ tk lb fi (bool_decide (v ≠ 0)) re).
Definition doc_reads := reads [1; 2; 3; 4; 5; 6; 7] doc_takes
  (λ b m, mkWDoc (wdId m) (wdContent m) (wdAttri m) (wdTokens m) (wdLabels m) (wdFields m) (wdForce m) (wdRest m ++ b)).

Inductive del_takes : fieldT → WDel → WDel → Prop :=
| del_id b x re : del_takes (1, Len b) (mkWDel x re) (mkWDel (stringOf b) re).
Definition del_reads := reads [1] del_takes (λ b m, mkWDel (wlId m) (wlRest m ++ b)).

Inductive reply_takes : fieldT → WReply → WReply → Prop :=
| reply_result v x re : reply_takes (1, Num v) (mkWReply x re) (mkWReply (int32 v) re).
Definition reply_reads := reads [1] reply_takes (λ b m, mkWReply (wrResult m) (wrRest m ++ b)).

Inductive expr_takes : fieldT → WExpr → WExpr → Prop :=
| expr_must b mu sh no re : expr_takes (1, Len b) (mkWExpr mu sh no re) (mkWExpr (mu ++ [stringOf b]) sh no re)
| expr_should b mu sh no re : expr_takes (2, Len b) (mkWExpr mu sh no re) (mkWExpr mu (sh ++ [stringOf b]) no re)
| expr_notin b mu sh no re : expr_takes (3, Len b) (mkWExpr mu sh no re) (mkWExpr mu sh (no ++ [stringOf b]) re).
Definition expr_reads := reads [1; 2; 3] expr_takes (λ b m, mkWExpr (weMust m) (weShould m) (weNotIn m) (weRest m ++ b)).

(** messages inside: merged with the one that came before *)
Inductive logic_takes : fieldT → WLogic → WLogic → Prop :=
| logic_must v x sh no ex re : logic_takes (1, Num v) (mkWLogic x sh no ex re) (mkWLogic (bool_decide (v ≠ 0)) sh no ex re)
| logic_should v x mu no ex re : logic_takes (2, Num v) (mkWLogic mu x no ex re) (mkWLogic mu (bool_decide (v ≠ 0)) no ex re)
| logic_notin v x mu sh ex re : logic_takes (3, Num v) (mkWLogic mu sh x ex re) (mkWLogic mu sh (bool_decide (v ≠ 0)) ex re)
| logic_expr b e mu sh no ex re :
    expr_reads (default (mkWExpr [] [] [] []) ex) b e →
    logic_takes (4, Len b) (mkWLogic mu sh no ex re) (mkWLogic mu sh no (Some e) re).
Definition logic_reads := reads [1; 2; 3; 4] logic_takes
  (λ b m, mkWLogic (wgMust m) (wgShould m) (wgNotIn m) (wgExpr m) (wgRest m ++ b)).

Inductive entry_takes : fieldT → string * bool → string * bool → Prop :=
| entry_key b k v : entry_takes (1, Len b) (k, v) (stringOf b, v)
| entry_value x k v : entry_takes (2, Num x) (k, v) (k, bool_decide (x ≠ 0)).
Definition entry_reads := reads [1; 2] entry_takes (λ _ e, e).
Inductive search_takes : fieldT → WSearch → WSearch → Prop :=
| search_id b x qu of_ mx ti ds lo re :
    search_takes (1, Len b) (mkWSearch x qu of_ mx ti ds lo re) (mkWSearch (stringOf b) qu of_ mx ti ds lo re)
| search_query b x id of_ mx ti ds lo re :
    search_takes (2, Len b) (mkWSearch id x of_ mx ti ds lo re) (mkWSearch id (stringOf b) of_ mx ti ds lo re)
| search_offset v x id qu mx ti ds lo re :
    search_takes (3, Num v) (mkWSearch id qu x mx ti ds lo re) (mkWSearch id qu (int32 v) mx ti ds lo re)
| search_max v x id qu of_ ti ds lo re :
    search_takes (4, Num v) (mkWSearch id qu of_ x ti ds lo re) (mkWSearch id qu of_ (int32 v) ti ds lo re)
| search_time b x id qu of_ mx ds lo re :
    search_takes (5, Len b) (mkWSearch id qu of_ mx x ds lo re) (mkWSearch id qu of_ mx (stringOf b) ds lo re)
| search_docid b k v id qu of_ mx ti ds lo re :
    entry_reads ("", false) b (k, v) →
    search_takes (6, Len b) (mkWSearch id qu of_ mx ti ds lo re) (mkWSearch id qu of_ mx ti (<[k := v]> ds) lo re)
| search_logic b g id qu of_ mx ti ds lo re :
    logic_reads (default (mkWLogic false false false None []) lo) b g →
    search_takes (7, Len b) (mkWSearch id qu of_ mx ti ds lo re) (mkWSearch id qu of_ mx ti ds (Some g) re).
Definition search_reads := reads [1; 2; 3; 4; 5; 6; 7] search_takes
  (λ b m, mkWSearch (wsId m) (wsQuery m) (wsOffset m) (wsMax m) (wsTime m) (wsDocIds m) (wsLogic m) (wsRest m ++ b)).

Inductive attri_takes : fieldT → WAttri → WAttri → Prop :=
| attri_title b x au tm ts re : attri_takes (1, Len b) (mkWAttri x au tm ts re) (mkWAttri (stringOf b) au tm ts re)
| attri_author b x ti tm ts re : attri_takes (2, Len b) (mkWAttri ti x tm ts re) (mkWAttri ti (stringOf b) tm ts re)
| attri_time b x ti au ts re : attri_takes (3, Len b) (mkWAttri ti au x ts re) (mkWAttri ti au (stringOf b) ts re)
| attri_ts v x ti au tm re : attri_takes (4, Num v) (mkWAttri ti au tm x re) (mkWAttri ti au tm (int64 v) re).
Definition attri_reads := reads [1; 2; 3; 4] attri_takes
  (λ b m, mkWAttri (waTitle m) (waAuthor m) (waTime m) (waTs m) (waRest m ++ b)).

Inductive text_takes : fieldT → WText → WText → Prop :=
| text_id b x ct at_ re : text_takes (1, Len b) (mkWText x ct at_ re) (mkWText (stringOf b) ct at_ re)
| text_content b x id at_ re : text_takes (2, Len b) (mkWText id x at_ re) (mkWText id (stringOf b) at_ re)
| text_attri b a id ct at_ re :
    attri_reads (default (mkWAttri "" "" "" 0 []) at_) b a →
    text_takes (3, Len b) (mkWText id ct at_ re) (mkWText id ct (Some a) re).
Definition text_reads := reads [1; 2; 3] text_takes (λ b m, mkWText (wxId m) (wxContent m) (wxAttri m) (wxRest m ++ b)).

Inductive answer_takes : fieldT → WAnswer → WAnswer → Prop :=
| answer_code v x le ts ds re : answer_takes (1, Num v) (mkWAnswer x le ts ds re) (mkWAnswer (int32 v) le ts ds re)
| answer_len v x co ts ds re : answer_takes (2, Num v) (mkWAnswer co x ts ds re) (mkWAnswer co (int32 v) ts ds re)
| answer_ts v x co le ds re : answer_takes (3, Num v) (mkWAnswer co le x ds re) (mkWAnswer co le (int64 v) ds re)
| answer_doc b t co le ts ds re :
    text_reads (mkWText "" "" None []) b t →
    answer_takes (4, Len b) (mkWAnswer co le ts ds re) (mkWAnswer co le ts (ds ++ [t]) re).
Definition answer_reads := reads [1; 2; 3; 4] answer_takes
  (λ b m, mkWAnswer (wnCode m) (wnLen m) (wnTimestamp m) (wnDocs m) (wnRest m ++ b)).

(** * Messages that a program can hold *)
Definition fits32 (v : Z) : Prop := - 2^31 <= v < 2^31.
Definition fits64 (v : Z) : Prop := - 2^63 <= v < 2^63.
(** bytes kept from a message of a newer version: fields this version does not know *)
Definition unknown (known : list Z) (b : bytes) : Prop :=
  ∃ fs, Forall (λ f, proper f ∧ f.1 ∉ known) fs ∧ b = wire fs.
Definition heart_ok (m : WHeart) : Prop := fits32 (whMsg m) ∧ unknown [1] (whRest m).
Definition tok_ok (m : WTok) : Prop := Forall fits32 (wtLocs m) ∧ unknown [1; 2] (wtRest m).
Definition doc_ok (m : WDoc) : Prop := Forall tok_ok (wdTokens m) ∧ unknown [1; 2; 3; 4; 5; 6; 7] (wdRest m).
Definition del_ok (m : WDel) : Prop := unknown [1] (wlRest m).
Definition reply_ok (m : WReply) : Prop := fits32 (wrResult m) ∧ unknown [1] (wrRest m).
Definition expr_ok (m : WExpr) : Prop := unknown [1; 2; 3] (weRest m).
Definition logic_ok (m : WLogic) : Prop := (∀ e, wgExpr m = Some e → expr_ok e) ∧ unknown [1; 2; 3; 4] (wgRest m).
Definition search_ok (m : WSearch) : Prop :=
  fits32 (wsOffset m) ∧ fits32 (wsMax m) ∧ (∀ g, wsLogic m = Some g → logic_ok g) ∧ unknown [1; 2; 3; 4; 5; 6; 7] (wsRest m).
Definition attri_ok (m : WAttri) : Prop := fits64 (waTs m) ∧ unknown [1; 2; 3; 4] (waRest m).
Definition text_ok (m : WText) : Prop := (∀ a, wxAttri m = Some a → attri_ok a) ∧ unknown [1; 2; 3] (wxRest m).
Definition answer_ok (m : WAnswer) : Prop :=
  fits32 (wnCode m) ∧ fits32 (wnLen m) ∧ fits64 (wnTimestamp m) ∧ Forall text_ok (wnDocs m) ∧ unknown [1; 2; 3; 4] (wnRest m).
(** as long as a slice can be *)
Definition short (b : bytes) : Prop := zlen b < 2^62.

(** * Input of any kind *)
(** less than 128 MB of bytes, and nowhere four bytes 255 in a row *)
Definition calm (data : bytes) : Prop :=
  Forall (λ b, 0 <= b < 256) data ∧ zlen data < 2^27 ∧ ∀ p q, data ≠ p ++ [255; 255; 255; 255] ++ q.
