(** Executable model of core/indexer.go: the read side (plain and logic search). *)
From Verif Require Export ModelIndexer.

(** types/index.go:47-67 IndexedDoc *)
Record IndexedDoc := mkIDoc {
  ixDocId : string; BM25 : F; TokenProximity : Z;
  TokenSnippetLocs : list Z; TokenLocs : list (list Z) }.
Definition emptyIDoc (id : string) : IndexedDoc := mkIDoc id f_zero 0 [] [].

(** types/search_request.go:72-99 Logic, Expr *)
Record Logic := mkLogic {
  lMust : bool; lShould : bool; lNotIn : bool;
  eMust : list string; eShould : list string; eNotIn : list string }.

(** * Token proximity *)

(** core/indexer.go:770-781 [update from to]: state (nextMinValues, path row). *)
Definition proxUpdate (cur next : list Z) (curMin : list Z) (len : Z)
    (from to : Z) (st : list Z * list Z) : option (list Z * list Z) :=
  if zlen next <=? to then Some st else
  let '(nextMin, path) := st in
  nt ← zget next to; cf ← zget cur from; mf ← zget curMin from;
  let value := int64 (mf + AbsInt (int64 (int64 (nt - cf) - len))) in
  old ← zget nextMin to;
  if (old =? -1) || (value <? old) then
    nextMin' ← zset nextMin to value;
    path' ← zset path to from;
    Some (nextMin', path')
  else Some st.

(** core/indexer.go:765-768: advance iNext while the following location is smaller
    than the current location. *)
Fixpoint proxAdvance (fuel : nat) (next : list Z) (currentLocation iNext : Z) : option Z :=
  if iNext + 1 <? zlen next then
    match fuel with
    | O => None
    | S fuel =>
      x ← zget next (iNext + 1);
      if x <? currentLocation then proxAdvance fuel next currentLocation (iNext + 1)
      else Some iNext
    end
  else Some iNext.

(** core/indexer.go:761-786: one iteration over the current locations.  State:
    (iNext, nextMinValues, path row). *)
Definition proxStep (cur next curMin : list Z) (len : Z)
    (st : Z * (list Z * list Z)) (iCurrent : nat) : option (Z * (list Z * list Z)) :=
  let '(iNext, np) := st in
  m ← curMin !! iCurrent;
  if m =? -1 then Some st else
  currentLocation ← cur !! iCurrent;
  iNext' ← proxAdvance (length next) next currentLocation iNext;
  np1 ← proxUpdate cur next curMin len (Z.of_nat iCurrent) iNext' np;
  np2 ← proxUpdate cur next curMin len (Z.of_nat iCurrent) (iNext' + 1) np1;
  Some (iNext', np2).

(** core/indexer.go:754-789: one token *)
Definition proxToken (cur curMin next : list Z) (len : Z) : option (list Z * list Z) :=
  '(_, np) ← foldlM (proxStep cur next curMin len) (seq 0 (length cur))
               (0, (replicate (length next) (-1), replicate (length next) 0));
  Some np.

(** core/indexer.go:753-790: all tokens.  Returns the final currentMinValues and
    the path rows path[1..].  [lens] holds the byte lengths of tokens i-1. *)
Fixpoint proxForward (cur curMin : list Z) (lens : list Z) (rest : list (list Z)) {struct rest}
    : option (list Z * list (list Z)) :=
  match rest, lens with
  | [], _ => Some (curMin, [])
  | next :: rest', len :: lens' =>
    '(nextMin, path) ← proxToken cur curMin next len;
    '(m, paths) ← proxForward next nextMin lens' rest';
    Some (m, path :: paths)
  | _ :: _, [] => None
  end.

(** core/indexer.go:793-802: the best final value and its position.
    State: (minTokenProximity, cursor). *)
Fixpoint proxBest (i : Z) (values : list Z) (best : Z * Z) : Z * Z :=
  match values with
  | [] => best
  | v :: values' =>
    proxBest (i + 1) values'
      (if v =? -1 then best
       else if (fst best =? -1) || (v <? fst best) then (v, i) else best)
  end.

(** core/indexer.go:805-810: walk the path backwards.  [locs] and [paths] are given
    in reverse order (last token first). *)
Fixpoint proxBack (rlocs : list (list Z)) (rpaths : list (list Z)) (cursor : Z)
    : option (list Z) :=
  match rlocs with
  | [] => Some []
  | l :: rlocs' =>
    x ← zget l cursor;
    match rpaths with
    | [] => match rlocs' with [] => Some [x] | _ => None end
    | p :: rpaths' =>
      c' ← zget p cursor;
      rest ← proxBack rlocs' rpaths' c';
      Some (rest ++ [x])
    end
  end.

(** core/indexer.go:732-813 computeTokenProximity.  [locs]: the location lists
    table[i].locations[indexPointers[i]] of the hit, one per token (read by the
    caller below, same panics). *)
Definition computeTokenProximity (locs : list (list Z)) (tokens : list string)
    : option (Z * list Z) :=
  match locs with
  | [] => None   (* table[0] on an empty slice, line 751 *)
  | cur :: rest =>
    '(m, paths) ← proxForward cur (replicate (length cur) 0) (strlen <$> tokens) rest;
    let '(best, cursor) := proxBest 0 m (-1, 0) in
    tl ← proxBack (reverse locs) (reverse paths) cursor;
    Some (best, tl)
  end.

(** * Plain search *)

(** Result of looking for the base document in rows 1.. (core/indexer.go:455-479). *)
Inductive inner :=
  | AllFound (ptrs : list Z)     (* found in every row *)
  | Miss (ptrs : list Z)         (* some row lacks it: go on with the next base *)
  | Stop.                        (* line 471: return *)

Fixpoint innerSearch (rows : list KeywordIndices) (ptrs : list Z) (base : string)
    : option inner :=
  match rows, ptrs with
  | [], _ => Some (AllFound ptrs)
  | r :: rows', p :: ptrs' =>
    '(position, found) ← searchIndex (docIds r) 0 p base;
    if (found : bool) then
      res ← innerSearch rows' ptrs' base;
      Some (match res with
            | AllFound ps => AllFound (position :: ps)
            | Miss ps => Miss (position :: ps)
            | Stop => Stop
            end)
    else if position =? 0 then Some Stop
    else Some (Miss (position - 1 :: ptrs'))
  | _ :: _, [] => None
  end.

Section Lookup.
  (** math.Log2 on float64 *)
  Variable log2 : F → F.

  (** core/indexer.go:540-543: the BM25 summand of one token.  Go evaluates float32
      expressions left to right, rounding after each operation (no fused
      multiply-add, as on amd64). *)
  Definition bm25Term (p : BM25Params) (numDocs rowLen : Z) (freq d avg : F) : F :=
    let idf := f32_of_f64 (log2 (f64_add (f64_div (f64_of_Z numDocs) (f64_of_Z rowLen))
                                         (f64_of_Z 1))) in
    let one := f32_of_Z 1 in
    f32_div (f32_mul (f32_mul idf freq) (f32_add (K1 p) one))
            (f32_add freq (f32_mul (K1 p)
               (f32_add (f32_sub one (B p)) (f32_div (f32_mul (B p) d) avg)))).

  (** core/indexer.go:526-546 *)
  Fixpoint bm25Loop (s : Indexer) (d avg : F) (rows : list KeywordIndices) (ptrs : list Z)
      (acc : F) : option F :=
    match rows, ptrs with
    | [], _ => Some acc
    | t :: rows', p :: ptrs' =>
      frequency ← (if IndexType (initOptions s) =? LocsIndex
                   then l ← zget (locations t) p; Some (f32_of_Z (zlen l))
                   else zget (frequencies t) p);
      let acc' :=
        match BM25Parameters (initOptions s) with
        | Some par =>
          if (0 <? zlen (docIds t)) && f_gtb frequency f_zero && negb (f_eqb avg f_zero)
          then f32_add acc (bm25Term par (numDocs s) (zlen (docIds t)) frequency d avg)
          else acc
        | None => acc
        end in
      bm25Loop s d avg rows' ptrs' acc'
    | _ :: _, [] => None
    end.

  (** The location lists of the hit in the token rows: t.locations[indexPointers[i]] *)
  Fixpoint hitLocs (rows : list KeywordIndices) (ptrs : list Z) : option (list (list Z)) :=
    match rows, ptrs with
    | [], _ => Some []
    | t :: rows', p :: ptrs' =>
      l ← zget (locations t) p; ls ← hitLocs rows' ptrs'; Some (l :: ls)
    | _ :: _, [] => None
    end.

  (** core/indexer.go:486-549: the document reported for a hit.  [rows], [ptrs]:
      the rows of the tokens and the positions of the hit in them. *)
  Definition hitDoc (s : Indexer) (tokens : list string) (rows : list KeywordIndices)
      (ptrs : list Z) (base : string) : option IndexedDoc :=
    let avg := f32_div (totalTokenLen s) (f32_of_Z (numDocs s)) in
    let d := default f_zero (docTokenLens s !! base) in
    if IndexType (initOptions s) =? LocsIndex then
      locs ← hitLocs rows ptrs;
      (* lines 491-507: tokens without location information *)
      if negb (forallb (λ l, 0 <? zlen l) locs) then Some (emptyIDoc base)
      else
        '(prox, tl) ← computeTokenProximity locs tokens;
        bm ← bm25Loop s d avg rows ptrs f_zero;
        Some (mkIDoc base bm (int32 prox) tl locs)
    else if IndexType (initOptions s) =? FrequenciesIndex then
      bm ← bm25Loop s d avg rows ptrs f_zero;
      Some (mkIDoc base bm 0 [] [])
    else Some (emptyIDoc base).

  (** core/indexer.go:446-555.  [n]: indexPointers[0] + 1; [ptrs]: the pointers of
      the rows 1.. .  The documents are produced in the order they are appended. *)
  Fixpoint lookupLoop (s : Indexer) (tokens : list string) (filter : option (gset string))
      (countOnly : bool) (row0 : KeywordIndices) (rows : list KeywordIndices)
      (n : nat) (ptrs : list Z) : option (list IndexedDoc * Z) :=
    match n with
    | O => Some ([], 0)
    | S n' =>
      base ← docIds row0 !! n';
      if (match filter with Some f => negb (bool_decide (base ∈ f)) | None => false end)
      then lookupLoop s tokens filter countOnly row0 rows n' ptrs
      else
        res ← innerSearch rows ptrs base;
        match res with
        | Stop => Some ([], 0)
        | Miss ps => lookupLoop s tokens filter countOnly row0 rows n' ps
        | AllFound ps =>
          if HasDoc s base then   (* lines 482-485 *)
            let trows := take (length tokens) (row0 :: rows) in
            let tptrs := take (length tokens) (Z.of_nat n' :: ps) in
            d ← hitDoc s tokens trows tptrs base;
            '(docs, num) ← lookupLoop s tokens filter countOnly row0 rows n' ps;
            Some (if countOnly then docs else d :: docs, num + 1)
          else lookupLoop s tokens filter countOnly row0 rows n' ps
        end
    end.

  (** core/indexer.go:417-558 internalLookup.  [keywords] = tokens ++ labels. *)
  Definition internalLookup (s : Indexer) (keywords tokens : list string)
      (filter : option (gset string)) (countOnly : bool) : option (list IndexedDoc * Z) :=
    match mapM (λ k, table s !! k) keywords with
    | None => Some ([], 0)          (* lines 424-427 *)
    | Some [] => Some ([], 0)       (* lines 433-435 *)
    | Some (row0 :: rows) =>
      lookupLoop s tokens filter countOnly row0 rows (length (docIds row0))
        ((λ r, zlen (docIds r) - 1) <$> rows)
    end.

  (** * Logic search *)

  (** core/indexer.go:817-828 findInMustTable *)
  Fixpoint findInMustTable (tbl : list KeywordIndices) (id : string) : option bool :=
    match tbl with
    | [] => Some true
    | r :: tbl' =>
      '(_, found) ← searchIndex (docIds r) 0 (zlen (docIds r) - 1) id;
      if (found : bool) then findInMustTable tbl' id else Some false
    end.

  (** core/indexer.go:853-864 findInNotInTable *)
  Fixpoint findInNotInTable (tbl : list KeywordIndices) (id : string) : option bool :=
    match tbl with
    | [] => Some false
    | r :: tbl' =>
      '(_, found) ← searchIndex (docIds r) 0 (zlen (docIds r) - 1) id;
      if (found : bool) then Some true else findInNotInTable tbl' id
    end.

  (** core/indexer.go:833-848 findInShouldTable *)
  Definition findInShouldTable (tbl : list KeywordIndices) (id : string) : option bool :=
    match tbl with [] => Some true | _ => findInNotInTable tbl id end.

  (** core/indexer.go:895-902 and 674-681: turn ids into result documents *)
  Definition idDocs (countOnly : bool) (ids : list string) : list IndexedDoc * Z :=
    (if countOnly then [] else emptyIDoc <$> ids, zlen ids).

  (** core/indexer.go:874-889: the union loop; [acc] = docIds so far *)
  Definition unionStep (notIn : list KeywordIndices) (acc : list string) (id : string)
      : option (list string) :=
    bad ← findInNotInTable notIn id;
    Some (if (bad : bool) then acc
          else if bool_decide (id ∈ acc) then acc else acc ++ [id]).
  (** core/indexer.go:869-905 unionTable *)
  Definition unionTable (tbl notIn : list KeywordIndices) (countOnly : bool)
      : option (list IndexedDoc * Z) :=
    ids ← foldlM (unionStep notIn) (mjoin (docIds <$> tbl)) [];
    Some (idDocs countOnly ids).

  (** core/indexer.go:630-651 *)
  Fixpoint mustLoop (filter : option (gset string)) (countOnly : bool)
      (must0 : KeywordIndices) (must should notIn : list KeywordIndices) (n : nat)
      : option (list IndexedDoc * Z) :=
    match n with
    | O => Some ([], 0)
    | S n' =>
      base ← docIds must0 !! n';
      if (match filter with Some f => negb (bool_decide (base ∈ f)) | None => false end)
      then mustLoop filter countOnly must0 must should notIn n'
      else
        m ← findInMustTable must base;
        sh ← findInShouldTable should base;
        nt ← findInNotInTable notIn base;
        '(docs, num) ← mustLoop filter countOnly must0 must should notIn n';
        if m && sh && negb nt
        then Some (if countOnly then docs else emptyIDoc base :: docs, num + 1)
        else Some (docs, num)
    end.

  (** core/indexer.go:663-669: NotIn only *)
  Definition notOnlyStep (notIn : list KeywordIndices) (acc : list string) (id : string)
      : option (list string) :=
    bad ← findInNotInTable notIn id;
    Some (if (bad : bool) then acc ++ [id] else acc).

  Definition nonempty {A} (l : list A) : bool := match l with [] => false | _ => true end.

  (** core/indexer.go:561-685 LogicLookup *)
  Definition LogicLookup (s : Indexer) (filter : option (gset string)) (countOnly : bool)
      (logicExpr : list string) (lg : Logic) : option (list IndexedDoc * Z) :=
    let e1 := if nonempty (eMust lg) then eMust lg else logicExpr in
    let useMust := lMust lg || nonempty (eMust lg) in
    match (if useMust then mapM (λ k, table s !! k) e1 else Some []) with
    | None => Some ([], 0)        (* line 580-582 *)
    | Some mustTable =>
      let e2 := if nonempty (eShould lg) then eShould lg else e1 in
      let useShould := lShould lg || nonempty (eShould lg) in
      let shouldTable := if useShould then omap (λ k, table s !! k) e2 else [] in
      if useShould && negb (nonempty shouldTable) then Some ([], 0)
      else
        let e3 := if nonempty (eNotIn lg) then eNotIn lg else e2 in
        let useNotIn := lNotIn lg || nonempty (eNotIn lg) in
        let notInTable := if useNotIn then omap (λ k, table s !! k) e3 else [] in
        if useMust then
          match mustTable with
          | [] => None            (* mustTable[0], line 630 *)
          | must0 :: must =>
            mustLoop filter countOnly must0 must shouldTable notInTable (length (docIds must0))
          end
        else if useShould then unionTable shouldTable notInTable countOnly
        else
          ids ← foldlM (notOnlyStep notInTable) (mjoin (docIds <$> notInTable)) [];
          Some (idDocs countOnly ids)
    end.

  (** core/indexer.go:371-415 Lookup.  The variadic [logic] is [None] when absent
      (direct users of core), [Some l] from the engine. *)
  Definition Lookup (s : Indexer) (tokens labels : list string)
      (filter : option (gset string)) (countOnly : bool) (logic : option Logic)
      : option (list IndexedDoc * Z) :=
    if numDocs s =? 0 then Some ([], 0) else
    let keywords := tokens ++ labels in
    match logic with
    | Some lg =>
      if nonempty keywords && (lMust lg || lShould lg || lNotIn lg)
      then LogicLookup s filter countOnly keywords lg
      else if nonempty (eMust lg) || nonempty (eShould lg)
      then LogicLookup s filter countOnly keywords lg
      else internalLookup s keywords tokens filter countOnly
    | None => internalLookup s keywords tokens filter countOnly
    end.
End Lookup.

(** The engine passes the zero Logic when the request has none. *)
Definition noLogic : Logic := mkLogic false false false [] [] [].
