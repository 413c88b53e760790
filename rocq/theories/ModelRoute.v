(** Which shard gets which call: engine.go Index / RemoveDoc / Flush, the routing part
    of segment.go segmenterWorker, and the indexer and ranker workers.  Sequential
    view: the messages of one client call are all processed before the next call is
    made, so that each shard sees one list of indexer calls and one of ranker calls.
    (ModelPipe.v has the concurrent view.) *)
From Verif Require Export ModelEngine.

(** Client calls.  [EIndex d f c a force]: Index(DocId d, DocData{Content: c, Fields:
    f, Attri: a, ...}, force), where [d] is the index entry that the segmenter builds
    (ModelSegment.v). *)
Inductive ecall :=
  | EIndex (doc : DocIndex) (fields : Iface) (content : string) (attri : Iface) (force : bool)
  | ERemove (docId : string) (force : bool)
  | EFlush.

Section Route.
  (** murmur.Sum32; NumShards; engine option IDOnly *)
  Variable murmur : string → Z.
  Variable numShards : Z.
  Variable only : bool.

  (** engine.go:413 and segment.go:261: shard of hash(docId + content) *)
  Definition shardOf (docId content : string) : Z :=
    getShard numShards (u32 (murmur (String.append docId content))).

  (** Calls on the indexer of shard [i]: segment.go:251-259, 299-307;
      engine.go:447-449; engine.go:830 (Flush indexes id "0"). *)
  Definition ixMsgs (i : Z) (c : ecall) : list op :=
    match c with
    | EIndex d _ content _ force =>
      if seqb (DocId d) "0" then (if force then [OpAdd None true] else [])
      else if shardOf (DocId d) content =? i then [OpAdd (Some d) force]
      else if force then [OpAdd None true] else []
    | ERemove id force => [OpRemove id force]
    | EFlush => [OpAdd None true]
    end.

  (** Calls on the ranker of shard [i]: segment.go:308-312, ranker_worker.go:48-58, 75-80,
      engine.go:451-454 *)
  Definition rkMsgs (i : Z) (c : ecall) : list rop :=
    match c with
    | EIndex d f content a _ =>
      if seqb (DocId d) "0" then []
      else if shardOf (DocId d) content =? i
      then [ROAdd (DocId d) f (if only then [] else [IStr content; a])] else []
    | ERemove id _ => if seqb id "0" then [] else [RORemove id]
    | EFlush => []
    end.

  Definition ixStream (i : Z) (cs : list ecall) : list op := mjoin (ixMsgs i <$> cs).
  Definition rkStream (i : Z) (cs : list ecall) : list rop := mjoin (rkMsgs i <$> cs).
End Route.
