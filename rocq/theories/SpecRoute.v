(** Specification vocabulary for the distribution of documents over shards. *)
From Verif Require Import ModelRoute SpecIndexer SpecSearch SpecRank.

Definition good_call (c : ecall) : Prop :=
  match c with EIndex d _ _ _ _ => good_doc d | _ => True end.
(** Calls with the force flag, on ordinary ids. *)
Definition forced_call (c : ecall) : Prop :=
  match c with
  | EIndex d _ _ _ f => f = true ∧ DocId d ≠ "0"
  | ERemove id f => f = true ∧ id ≠ "0"
  | EFlush => True
  end.

(** The version of [id] that shard [i] must hold: that of the last call which either
    removes the id or indexes it with a content hashed to this very shard. *)
Definition sent_to (murmur : string → Z) (n i : Z) (id : string) (c : ecall) : bool :=
  match c with
  | EIndex d _ content _ _ =>
    seqb (DocId d) id && (u32 (murmur (String.append id content)) `mod` n =? i)
  | ERemove id' _ => seqb id' id
  | EFlush => false
  end.
Definition version (murmur : string → Z) (n i : Z) (cs : list ecall) (id : string) : option DocIndex :=
  match head (filter (λ c, sent_to murmur n i id c = true) (reverse cs)) with
  | Some (EIndex d _ _ _ _) => Some d
  | _ => None
  end.

(** Indexer and ranker of shard [i] after the calls [cs]. *)
Definition shard_after (murmur : string → Z) (sortDocs : list DocIndex → list DocIndex) (o : IndexerOpts)
    (only : bool) (n i : Z) (cs : list ecall) (sh : Shard) : Prop :=
  reach sortDocs o (ixStream murmur n i cs) (shIx sh) ∧
  rrun (rkStream murmur n only i cs) (RankerInit [only]) = Some (shRk sh).

(** The shard serves document [d], with these fields, content and attributes: it is
    live, its words and their entries are those of [d], plain searches find it by
    exactly those words, and the ranker knows its payload. *)
Definition serves (log2 : F → F) (only : bool) (sh : Shard) (d : DocIndex)
    (f : Iface) (content : string) (a : Iface) : Prop :=
  HasDoc (shIx sh) (DocId d) = true ∧
  (∀ k, in_row (shIx sh) k (DocId d) ↔ k ∈ Text <$> Keywords d) ∧
  (∀ kw, kw ∈ Keywords d → entry_at (shIx sh) (DocId d) kw) ∧
  (∀ tokens labels flt logic docs n, plain_logic logic →
     Lookup log2 (shIx sh) tokens labels flt false logic = Some (docs, n) →
     DocId d ∈ ixDocId <$> docs ↔
       tokens ++ labels ≠ [] ∧ passes flt (DocId d) ∧
       ∀ k, k ∈ tokens ++ labels → k ∈ Text <$> Keywords d) ∧
  ranker_holds (shRk sh) (DocId d) (Some f) (if only then None else Some content)
    (if only then None else Some a).
