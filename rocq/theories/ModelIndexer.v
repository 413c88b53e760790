(** Executable model of core/indexer.go: the write side (adding and removing
    documents) and the position search.  Sequential semantics: one call runs to
    completion before the next one starts (the interleavings of the workers are
    modelled in ModelLocks.v).  A run-time panic is [None]. *)
From Verif Require Export GoBase.

(** * Data types *)

(** types/index.go:35-44 KeywordIndex *)
Record KeywordIndex := mkKw { Text : string; Frequency : F; Starts : list Z }.
(** types/index.go:23-32 DocIndex *)
Record DocIndex := mkDoc { DocId : string; TokenLen : F; Keywords : list KeywordIndex }.
(** core/indexer.go:69-74 KeywordIndices.  The table stores pointers to rows; no
    two keys share a row, so rows are modelled by value. *)
Record KeywordIndices := mkRow {
  docIds : list string; frequencies : list F; locations : list (list Z) }.
(** types/indexer_init_options.go:20-28 *)
Definition DocIdsIndex : Z := 0.
Definition FrequenciesIndex : Z := 1.
Definition LocsIndex : Z := 2.
(** types/indexer_init_options.go:35-51 IndexerOpts, BM25Parameters (nil = None). *)
Record BM25Params := mkBM25 { K1 : F; B : F }.
Record IndexerOpts := mkOpts {
  IndexType : Z; DocCacheSize : Z; BM25Parameters : option BM25Params }.

(** core/indexer.go:33-66 Indexer, without locks and the [initialized] flag.
    [addCache]: only the cells below addCachePointer are kept; the cells above are
    never read before they are overwritten.  Same for [removeCache].  The capacity
    checks on both arrays are kept.  [numDocs] is a uint64 in Go; here it is an
    unbounded integer (2^64 distinct live ids would be needed to wrap upwards, and
    PropIndexer shows that it never goes below 0). *)
Record Indexer := mkIndexer {
  table : gmap string KeywordIndices;
  docsState : gmap string Z;
  addCache : list DocIndex;
  removeCache : list string;
  initOptions : IndexerOpts;
  numDocs : Z;
  totalTokenLen : F;
  docTokenLens : gmap string F }.

(** types/indexer_init_options.go:54-58 and core/indexer.go:77-93 Init.
    A negative cache size makes [make] panic. *)
Definition optsInit (o : IndexerOpts) : IndexerOpts :=
  mkOpts (IndexType o) (if DocCacheSize o =? 0 then 300000 else DocCacheSize o)
         (BM25Parameters o).
Definition Init (o : IndexerOpts) : option Indexer :=
  let o' := optsInit o in
  if DocCacheSize o' <? 0 then None
  else Some (mkIndexer ∅ ∅ [] [] o' 0 f_zero ∅).

(** core/indexer.go:101-108 HasDoc *)
Definition HasDoc (s : Indexer) (id : string) : bool :=
  match docsState s !! id with Some st => st =? 0 | None => false end.

(** * Position search *)

(** core/indexer.go:708-720, the loop of searchIndex.  [fuel] bounds the number of
    iterations; the caller passes end-start, which is always enough. *)
Fixpoint searchLoop (fuel : nat) (ids : list string) (start end_ : Z) (docId : string)
    : option (Z * bool) :=
  if end_ - start >? 1 then
    match fuel with
    | O => None
    | S fuel =>
      let middle := (start + end_) `quot` 2 in
      x ← zget ids middle;
      if seqb docId x then Some (middle, true)
      else if sltb x docId then searchLoop fuel ids middle end_ docId
      else searchLoop fuel ids start middle docId
    end
  else Some (end_, false).

(** core/indexer.go:690-721 searchIndex (on the docIds column) *)
Definition searchIndex (ids : list string) (start end_ : Z) (docId : string)
    : option (Z * bool) :=
  if zlen ids =? start then Some (start, false) else
  x ← zget ids start;
  if sltb docId x then Some (start, false)
  else if seqb docId x then Some (start, true)
  else
    y ← zget ids end_;
    if sltb y docId then Some (end_ + 1, false)
    else if seqb docId y then Some (end_, true)
    else searchLoop (Z.to_nat (end_ - start)) ids start end_ docId.

(** * Adding documents *)

(** Loop combinator: for each element, stop at a panic. *)
Fixpoint foldlM {A S} (f : S → A → option S) (l : list A) (s : S) : option S :=
  match l with
  | [] => Some s
  | a :: l => s' ← f s a; foldlM f l s'
  end.

(** core/indexer.go:213-222: new row for a keyword seen for the first time *)
Definition newRow (ity : Z) (docId : string) (kw : KeywordIndex) : KeywordIndices :=
  mkRow [docId]
        (if ity =? FrequenciesIndex then [Frequency kw] else [])
        (if ity =? LocsIndex then [Starts kw] else []).

(** core/indexer.go:231-247: insert into an existing row at [position] *)
Definition insertRow (ity : Z) (docId : string) (kw : KeywordIndex) (position : Z)
    (r : KeywordIndices) : option KeywordIndices :=
  locs ← (if ity =? LocsIndex then go_insert (locations r) position [] (Starts kw)
          else Some (locations r));
  freqs ← (if ity =? FrequenciesIndex
           then go_insert (frequencies r) position f_zero (Frequency kw)
           else Some (frequencies r));
  ids ← go_insert (docIds r) position "0" docId;
  Some (mkRow ids freqs locs).

(** core/indexer.go:209-248: one keyword of one document.  State: the table and
    [indexPointers] (line 186; a missing key reads 0). *)
Definition addKeyword (ity : Z) (docId : string)
    (st : gmap string KeywordIndices * gmap string Z) (kw : KeywordIndex)
    : option (gmap string KeywordIndices * gmap string Z) :=
  let '(T, ptrs) := st in
  match T !! Text kw with
  | None => Some (<[Text kw := newRow ity docId kw]> T, ptrs)
  | Some indices =>
    '(position, _) ← searchIndex (docIds indices) (default 0 (ptrs !! Text kw))
                        (zlen (docIds indices) - 1) docId;
    r ← insertRow ity docId kw position indices;
    Some (<[Text kw := r]> T, <[Text kw := position]> ptrs)
  end.

(** core/indexer.go:189-255: one iteration of the document loop; [next] is the
    document at i+1, if any. *)
Definition addOneDoc (doc : DocIndex) (next : option DocIndex)
    (st : Indexer * gmap string Z) : option (Indexer * gmap string Z) :=
  let '(s, ptrs) := st in
  if (match next with Some d => seqb (DocId doc) (DocId d) | None => false end)
  then Some st else
  if (match docsState s !! DocId doc with Some z => z =? 1 | None => false end)
  then Some st else
  let nz := negb (f_eqb (TokenLen doc) f_zero) in
  let lens := if nz then <[DocId doc := TokenLen doc]> (docTokenLens s) else docTokenLens s in
  let total := if nz then f32_add (totalTokenLen s) (TokenLen doc) else totalTokenLen s in
  '(T, ptrs') ← foldlM (addKeyword (IndexType (initOptions s)) (DocId doc))
                  (Keywords doc) (table s, ptrs);
  Some (mkIndexer T (<[DocId doc := 0]> (docsState s)) (addCache s) (removeCache s)
          (initOptions s) (numDocs s + 1) total lens, ptrs').

Fixpoint addDocsLoop (docs : list DocIndex) (st : Indexer * gmap string Z)
    : option (Indexer * gmap string Z) :=
  match docs with
  | [] => Some st
  | d :: rest => st' ← addOneDoc d (head rest) st; addDocsLoop rest st'
  end.

(** core/indexer.go:179-256 AddDocs *)
Definition AddDocs (docs : list DocIndex) (s : Indexer) : option Indexer :=
  '(s', _) ← addDocsLoop docs (s, ∅); Some s'.

(** * Removing documents *)

(** Go's sort.Search (binary search for the first index satisfying f), as used in
    core/indexer.go:316-321 with f(i) = docs[i] >= first. *)
Fixpoint sortSearch (fuel : nat) (docs : list string) (first : string) (i j : Z) : option Z :=
  if i <? j then
    match fuel with
    | O => None
    | S fuel =>
      let h := (i + j) `quot` 2 in
      x ← zget docs h;
      if sltb x first then sortSearch fuel docs first (h + 1) j
      else sortSearch fuel docs first i h
    end
  else Some i.

(** core/indexer.go:327-336: move entry [p] of the row down to [top] *)
Definition moveEntry (ity top p : Z) (r : KeywordIndices) : option KeywordIndices :=
  if top =? p then Some r else
  locs ← (if ity =? LocsIndex then x ← zget (locations r) p; zset (locations r) top x
          else Some (locations r));
  freqs ← (if ity =? FrequenciesIndex then x ← zget (frequencies r) p; zset (frequencies r) top x
           else Some (frequencies r));
  ids ← (x ← zget (docIds r) p; zset (docIds r) top x);
  Some (mkRow ids freqs locs).

(** core/indexer.go:324-346: the two-pointer loop.  Returns the row with its
    indicesTop and indicesPointer. *)
Fixpoint compactLoop (fuel : nat) (ity : Z) (docs : list string) (r : KeywordIndices)
    (top p dp : Z) : option (KeywordIndices * Z * Z) :=
  if (dp <? zlen docs) && (p <? zlen (docIds r)) then
    match fuel with
    | O => None
    | S fuel =>
      x ← zget (docIds r) p;
      y ← zget docs dp;
      if sltb x y then
        r' ← moveEntry ity top p r;
        compactLoop fuel ity docs r' (top + 1) (p + 1) dp
      else if seqb x y then compactLoop fuel ity docs r top (p + 1) (dp + 1)
      else compactLoop fuel ity docs r top p (dp + 1)
    end
  else Some (r, top, p).

(** core/indexer.go:348-360: [append(x[:top], x[p:]...)] *)
Definition cutCol {A} (l : list A) (top p : Z) : option (list A) :=
  a ← zslice l 0 top; b ← zslice l p (zlen l); Some (a ++ b).

(** core/indexer.go:315-364: one row.  [Some None]: the row became empty and is
    deleted from the table. *)
Definition removeFromRow (ity : Z) (docs : list string) (r : KeywordIndices)
    : option (option KeywordIndices) :=
  dp ← (match docs with
        | [] => Some 0   (* sort.Search does not call f *)
        | _ => first ← zget (docIds r) 0;
               sortSearch (length docs) docs first 0 (zlen docs)
        end);
  '(r', top, p) ← compactLoop (length docs + length (docIds r)) ity docs r 0 0 dp;
  r'' ← (if top =? p then Some r' else
           locs ← (if ity =? LocsIndex then cutCol (locations r') top p else Some (locations r'));
           freqs ← (if ity =? FrequenciesIndex then cutCol (frequencies r') top p
                    else Some (frequencies r'));
           ids ← cutCol (docIds r') top p;
           Some (mkRow ids freqs locs));
  Some (match docIds r'' with [] => None | _ => Some r'' end).

(** core/indexer.go:308-312: states and token lengths *)
Definition removeStates (docs : list string) (s : Indexer) : Indexer :=
  foldl (λ s id,
    mkIndexer (table s) (delete id (docsState s)) (addCache s) (removeCache s)
      (initOptions s) (numDocs s)
      (f32_sub (totalTokenLen s) (default f_zero (docTokenLens s !! id)))
      (delete id (docTokenLens s))) s docs.

(** core/indexer.go:299-366 RemoveDocs.  The range over the table treats each row
    independently (deleting the current key during a range is allowed in Go), so
    the iteration order does not matter; if any row panics the call panics. *)
Definition RemoveDocs (docs : list string) (s : Indexer) : option Indexer :=
  let s1 := removeStates docs s in
  let f := removeFromRow (IndexType (initOptions s)) docs in
  if decide (map_Forall (λ _ r, is_Some (f r)) (table s1)) then
    Some (mkIndexer (omap (λ r, f r ≫= id) (table s1)) (docsState s1) (addCache s1)
            (removeCache s1) (initOptions s1) (numDocs s1) (totalTokenLen s1) (docTokenLens s1))
  else None.

(** * The caches *)

(** sort.Sort on a list of plain strings: all sorted permutations coincide, so a
    concrete sort is used (types/index.go:86-98 DocsId). *)
Definition sortIds (l : list string) : list string := merge_sort sle l.

(** core/indexer.go:270-271 and 147-149: append to the remove queue, whose array has
    2*DocCacheSize cells (line 90-91). *)
Definition pushRemove (id : string) (s : Indexer) : option Indexer :=
  if zlen (removeCache s) <? 2 * DocCacheSize (initOptions s) then
    Some (mkIndexer (table s) (docsState s) (addCache s) (removeCache s ++ [id])
            (initOptions s) (numDocs s) (totalTokenLen s) (docTokenLens s))
  else None.

(** docsState[id] = st together with numDocs += dn *)
Definition setState (id : string) (st : Z) (dn : Z) (s : Indexer) : Indexer :=
  mkIndexer (table s) (<[id := st]> (docsState s)) (addCache s) (removeCache s)
    (initOptions s) (numDocs s + dn) (totalTokenLen s) (docTokenLens s).
Definition setAddCache (c : list DocIndex) (s : Indexer) : Indexer :=
  mkIndexer (table s) (docsState s) c (removeCache s)
    (initOptions s) (numDocs s) (totalTokenLen s) (docTokenLens s).
Definition setRemoveCache (c : list string) (s : Indexer) : Indexer :=
  mkIndexer (table s) (docsState s) (addCache s) c
    (initOptions s) (numDocs s) (totalTokenLen s) (docTokenLens s).

(** core/indexer.go:266-281: mark the document for removal *)
Definition markRemove (docId : string) (s : Indexer) : option Indexer :=
  if seqb docId "0" then Some s else
  match docsState s !! docId with
  | Some 0 => s1 ← pushRemove docId s; Some (setState docId 1 (-1) s1)
  | Some 2 => Some (setState docId 1 0 s)
  | _ => Some s
  end.

(** core/indexer.go:260-296 RemoveDocToCache *)
Definition RemoveDocToCache (docId : string) (forceUpdate : bool) (s : Indexer)
    : option (Indexer * bool) :=
  s1 ← markRemove docId s;
  let docSizeFU := (DocCacheSize (initOptions s1) <=? zlen (removeCache s1)) || forceUpdate in
  if (0 <? zlen (removeCache s1)) && docSizeFU then
    let docs := sortIds (removeCache s1) in
    s2 ← RemoveDocs docs (setRemoveCache [] s1);
    Some (s2, true)
  else Some (s1, false).

(** core/indexer.go:132-159: one iteration of the scan of the add cache.
    State: (indexer, position). *)
Definition scanStep (st : Indexer * Z) (i : nat) : option (Indexer * Z) :=
  let '(s, position) := st in
  docIndex ← addCache s !! i;
  match docsState s !! DocId docIndex with
  | Some z =>
    if z <=? 1 then
      (* lines 139-142: swap cells position and i (a no-op when they coincide) *)
      other ← zget (addCache s) position;
      c1 ← zset (addCache s) position docIndex;
      let s1 := setAddCache (<[i := other]> c1) s in
      s2 ← (if z =? 0 then
              s1' ← pushRemove (DocId docIndex) s1;
              Some (setState (DocId docIndex) 1 (-1) s1')
            else Some s1);
      Some (s2, position + 1)
    else Some st
  | None => Some (setState (DocId docIndex) 2 0 s, position)
  end.

Section AddDocToCache.
  (** sort.Sort on the waiting documents (types/index.go:70-82 DocsIndex, by
      DocId): not stable, hence a parameter. *)
  Variable sortDocs : list DocIndex → list DocIndex.

  (** core/indexer.go:121-125: append the document, if any.  The array has
      DocCacheSize cells. *)
  Definition pushAdd (doc : option DocIndex) (s : Indexer) : option Indexer :=
    match doc with
    | None => Some s
    | Some d =>
      if zlen (addCache s) <? DocCacheSize (initOptions s)
      then Some (setAddCache (addCache s ++ [d]) s) else None
    end.

  (** core/indexer.go:116-176 AddDocToCache *)
  Definition AddDocToCache (doc : option DocIndex) (forceUpdate : bool) (s : Indexer)
      : option Indexer :=
    s1 ← pushAdd doc s;
    let docSize := DocCacheSize (initOptions s1) <=? zlen (addCache s1) in
    if docSize || forceUpdate then
      '(s2, position) ← foldlM scanStep (seq 0 (length (addCache s1))) (s1, 0);
      '(s3, removed) ← RemoveDocToCache "0" forceUpdate s2;
      let position' := if (removed : bool) then 0 else position in
      addCachedDocs ← zslice (addCache s3) position' (zlen (addCache s3));
      kept ← zslice (addCache s3) 0 position';
      AddDocs (sortDocs addCachedDocs) (setAddCache kept s3)
    else Some s1.
End AddDocToCache.

(** What sort.Sort guarantees for DocsIndex: a permutation, ordered by Less. *)
Definition doc_le (a b : DocIndex) : Prop := sle (DocId a) (DocId b).
Definition valid_sort (f : list DocIndex → list DocIndex) : Prop :=
  ∀ l, f l ≡ₚ l ∧ StronglySorted doc_le (f l).

(** A history: calls of the exported mutators. *)
Inductive op :=
  | OpAdd (doc : option DocIndex) (force : bool)
  | OpRemove (docId : string) (force : bool).

Definition step (sortDocs : list DocIndex → list DocIndex) (s : Indexer) (o : op)
    : option Indexer :=
  match o with
  | OpAdd d f => AddDocToCache sortDocs d f s
  | OpRemove id f => '(s', _) ← RemoveDocToCache id f s; Some s'
  end.

Definition run (sortDocs : list DocIndex → list DocIndex) (ops : list op) (s : Indexer)
    : option Indexer := foldlM (step sortDocs) ops s.
