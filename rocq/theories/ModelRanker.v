(** Executable model of core/ranker.go and of the result order in
    types/search_response.go.  Sequential semantics; a run-time panic is [None]. *)
From Verif Require Export ModelLookup.

(** A Go interface{} value: nil, a string, or a value of some other type (the code
    never looks inside those, so they are numbered). *)
Inductive Iface := INil | IStr (s : string) | IOther (n : Z).

(** types/search_response.go:75-84, 121-137.  ScoredDoc embeds ScoredID; a plain
    ScoredID (engine option IDOnly) is represented by the ScoredDoc whose Content,
    Attri and Fields are empty. *)
Record ScoredDoc := mkScored {
  sdDocId : string; sdScores : list F; sdSnippetLocs : list Z; sdTokenLocs : list (list Z);
  sdContent : string; sdAttri : Iface; sdFields : Iface }.

(** core/ranker.go:28-41 Ranker, without the lock and the [initialized] flag.  The
    maps content and attri stay nil when idOnly is set; reading a nil map gives the
    zero value, like an empty map, and they are not written then. *)
Record Ranker := mkRanker {
  rFields : gmap string Iface; rDocs : gmap string bool;
  rContent : gmap string string; rAttri : gmap string Iface; idOnly : bool }.

(** core/ranker.go:44-62 Init *)
Definition RankerInit (onlyID : list bool) : Ranker :=
  mkRanker ∅ ∅ ∅ ∅ (match onlyID with b :: _ => b | [] => false end).

(** core/ranker.go:66-90 AddDoc; [content] is the variadic part.  The type
    assertion content[0].(string) panics on other values. *)
Definition RankerAdd (docId : string) (fields : Iface) (content : list Iface) (r : Ranker)
    : option Ranker :=
  let fs := <[docId := fields]> (rFields r) in
  let ds := <[docId := true]> (rDocs r) in
  if idOnly r then Some (mkRanker fs ds (rContent r) (rAttri r) true)
  else
    c ← (match content with
         | [] => Some (rContent r)
         | IStr s :: _ => Some (<[docId := s]> (rContent r))
         | _ :: _ => None
         end);
    let a := match content with _ :: x :: _ => <[docId := x]> (rAttri r) | _ => rAttri r end in
    Some (mkRanker fs ds c a false).

(** core/ranker.go:93-109 RemoveDoc *)
Definition RankerRemove (docId : string) (r : Ranker) : Ranker :=
  let fs := delete docId (rFields r) in
  let ds := delete docId (rDocs r) in
  if idOnly r then mkRanker fs ds (rContent r) (rAttri r) true
  else mkRanker fs ds (delete docId (rContent r)) (delete docId (rAttri r)) false.

(** types/search_request.go:57-69 RankOpts; ScoringCriteria is its Score method. *)
Record RankOpts := mkRankOpts {
  ScoringCriteria : IndexedDoc → Iface → list F;
  ReverseOrder : bool; OutputOffset : Z; MaxOutputs : Z }.

(** types/search_response.go:97-108 and 150-161 Less: the loop over the common
    prefix, then the longer one is first. *)
Fixpoint scoresLess (a b : list F) : bool :=
  match a, b with
  | x :: a', y :: b' =>
    if f_gtb x y then true else if f_ltb x y then false else scoresLess a' b'
  | _, _ => zlen a >? zlen b
  end.
Definition docLess (x y : ScoredDoc) : bool := scoresLess (sdScores x) (sdScores y).

(** core/ranker.go:111-122 maxOutput; the addition wraps around. *)
Definition maxOutput (o : RankOpts) (docsLen : Z) : Z * Z :=
  if negb (MaxOutputs o =? 0) then
    (MinInt (OutputOffset o) docsLen, MinInt (int64 (OutputOffset o + MaxOutputs o)) docsLen)
  else (MinInt (OutputOffset o) docsLen, docsLen).

(** core/ranker.go:138-144 and 195-209: the entry built for one document *)
Definition mkEntry (r : Ranker) (d : IndexedDoc) (scores : list F) : ScoredDoc :=
  if idOnly r then
    mkScored (ixDocId d) scores (TokenSnippetLocs d) (TokenLocs d) "" INil INil
  else
    mkScored (ixDocId d) scores (TokenSnippetLocs d) (TokenLocs d)
      (default "" (rContent r !! ixDocId d))
      (default INil (rAttri r !! ixDocId d))
      (default INil (rFields r !! ixDocId d)).

(** core/ranker.go:126-151 and 181-216: one iteration *)
Definition rankStep (r : Ranker) (o : RankOpts) (countOnly : bool)
    (st : list ScoredDoc * Z) (d : IndexedDoc) : list ScoredDoc * Z :=
  let '(out, num) := st in
  match rDocs r !! ixDocId d with
  | None => st
  | Some _ =>
    let scores := ScoringCriteria o d (default INil (rFields r !! ixDocId d)) in
    if 0 <? zlen scores then
      (if countOnly then out else out ++ [mkEntry r d scores], num + 1)
    else st
  end.

(** core/ranker.go:124-154 rankOutIDs, 179-219 rankOutDocs *)
Definition rankOut (r : Ranker) (docs : list IndexedDoc) (o : RankOpts) (countOnly : bool)
    : list ScoredDoc * Z := foldl (rankStep r o countOnly) ([], 0) docs.

Section Rank.
  (** sort.Sort with a given Less: not stable, hence a parameter. *)
  Variable sortBy : (ScoredDoc → ScoredDoc → bool) → list ScoredDoc → list ScoredDoc.

  (** sort.Sort(docs) or sort.Sort(sort.Reverse(docs)) *)
  Definition sortScored (reverse : bool) (docs : list ScoredDoc) : list ScoredDoc :=
    sortBy (if reverse then λ x y, docLess y x else docLess) docs.

  (** core/ranker.go:157-177 RankDocID, 222-242 RankDocs, 246-261 Rank *)
  Definition Rank (r : Ranker) (docs : list IndexedDoc) (o : RankOpts) (countOnly : bool)
      : option (list ScoredDoc * Z) :=
    let '(outputDocs, numDocs) := rankOut r docs o countOnly in
    if countOnly then Some (outputDocs, numDocs)
    else
      let outputDocs := sortScored (ReverseOrder o) outputDocs in
      let '(start, end_) := maxOutput o (zlen outputDocs) in
      page ← zslice outputDocs start end_;
      Some (page, numDocs).
End Rank.

(** What sort.Sort guarantees: a permutation; ordered if Less is a strict weak
    order on the elements of the slice. *)
Definition strict_weak_on {A} (less : A → A → bool) (l : list A) : Prop :=
  (∀ x, x ∈ l → less x x = false) ∧
  (∀ x y z, x ∈ l → y ∈ l → z ∈ l → less x y = true → less y z = true → less x z = true) ∧
  (∀ x y z, x ∈ l → y ∈ l → z ∈ l →
     less x y = false → less y x = false → less y z = false → less z y = false →
     less x z = false ∧ less z x = false).
Definition valid_sortBy {A} (sortBy : (A → A → bool) → list A → list A) : Prop :=
  ∀ less l, sortBy less l ≡ₚ l ∧
    (strict_weak_on less l → StronglySorted (λ x y, less y x = false) (sortBy less l)).

(** Calls on the ranker. *)
Inductive rop :=
  | ROAdd (docId : string) (fields : Iface) (content : list Iface)
  | RORemove (docId : string).
Definition rstep (r : Ranker) (o : rop) : option Ranker :=
  match o with
  | ROAdd id f c => RankerAdd id f c r
  | RORemove id => Some (RankerRemove id r)
  end.
Definition rrun (ops : list rop) (r : Ranker) : option Ranker := foldlM rstep ops r.
