(** Small components: memory statistics (info.go), the document-information
    tables (core/data.go) and the heartbeat monitor (net/heartb/heart.go). *)
From Verif Require Import GoBase.

(** * info.go *)

(** info.go:71-73 ToKB; [uint64] division *)
Definition ToKB (data : Z) : Z := data / 1024.
(** info.go:76-78 ToMB *)
Definition ToMB (data : Z) : Z := data / 1024 / 1024.
(** info.go:81-83 ToGB *)
Definition ToGB (data : Z) : Z := data / 1024 / 1024 / 1024.

(** info.go:32-37 init: the value kept of a reading (value, error); the error
    is dropped *)
Definition initUsed (reading : Z * bool) : Z := reading.1.
(** info.go:51-58 UsedMem, 102-109 UsedDisk; a reading is (value, error);
    [uint64] subtraction wraps *)
Definition usedSince (init : Z) (reading : Z * bool) : Z * bool :=
  if reading.2 then (0, true) else (u64 (reading.1 - init), false).

(** * core/data.go *)

(** types/doc_info.go:30-33 DocInfo; the fields are irrelevant here, a value
    stands for the pointer *)
Definition DocInfoPtr := Z.

(** types/doc_info.go:23-27 DocInfosShard *)
Record DocInfosShard := mkDIS { DocInfos : gmap string DocInfoPtr; NumDocs : Z }.
(** types/doc_info.go:38-42 InvertedIndexShard *)
Record InvertedIndexShard := mkIIS { InvertedIndex : gmap string Z; TotalTokenLen : F }.

(** core/data.go:23-27, 67-71: the two global tables.  Every function below
    takes the lock of its table for its whole body, so calls are atomic. *)
Record Groups := mkGroups {
  DocInfoGroup : gmap Z DocInfosShard;
  InvertedIndexGroup : gmap Z InvertedIndexShard }.
Definition emptyGroups : Groups := mkGroups ∅ ∅.

(** core/data.go:30-38 AddDocInfosShard *)
Definition AddDocInfosShard (shard : Z) (g : Groups) : Groups :=
  match DocInfoGroup g !! shard with
  | Some _ => g
  | None => mkGroups (<[shard := mkDIS ∅ 0]> (DocInfoGroup g)) (InvertedIndexGroup g)
  end.

(** core/data.go:41-52 AddDocInfo; NumDocs is a uint64 *)
Definition AddDocInfo (shard : Z) (docId : string) (docinfo : DocInfoPtr) (g : Groups) : Groups :=
  let sh := match DocInfoGroup g !! shard with Some sh => sh | None => mkDIS ∅ 0 end in
  mkGroups (<[shard := mkDIS (<[docId := docinfo]> (DocInfos sh)) (u64 (NumDocs sh + 1))]>
              (DocInfoGroup g)) (InvertedIndexGroup g).

(** core/data.go:55-65 IsDocExist; the loop visits the shards in any order and
    stops at the first that has the document, the answer does not depend on
    the order *)
Definition IsDocExist (docId : string) (g : Groups) : bool :=
  existsb (λ p : Z * DocInfosShard, bool_decide (is_Some (DocInfos p.2 !! docId)))
    (map_to_list (DocInfoGroup g)).

(** core/data.go:74-82 AddInvertedIndexShard *)
Definition AddInvertedIndexShard (shard : Z) (g : Groups) : Groups :=
  match InvertedIndexGroup g !! shard with
  | Some _ => g
  | None => mkGroups (DocInfoGroup g) (<[shard := mkIIS ∅ f_zero]> (InvertedIndexGroup g))
  end.

(** core/data.go:85-95 AddKeywordIndices; TotalTokenLen is a float32 *)
Definition AddKeywordIndices (shard : Z) (keyword : string) (indices : Z) (g : Groups) : Groups :=
  let sh := match InvertedIndexGroup g !! shard with Some sh => sh | None => mkIIS ∅ f_zero end in
  mkGroups (DocInfoGroup g)
    (<[shard := mkIIS (<[keyword := indices]> (InvertedIndex sh))
                      (f32_add (TotalTokenLen sh) (f32_of_Z 1))]> (InvertedIndexGroup g)).

(** a history of calls *)
Inductive gcall :=
  | GAddShard (shard : Z)
  | GAddDoc (shard : Z) (docId : string) (info : DocInfoPtr)
  | GAddIxShard (shard : Z)
  | GAddKeyword (shard : Z) (keyword : string) (indices : Z).
Definition gstep (g : Groups) (c : gcall) : Groups :=
  match c with
  | GAddShard s => AddDocInfosShard s g
  | GAddDoc s id i => AddDocInfo s id i g
  | GAddIxShard s => AddInvertedIndexShard s g
  | GAddKeyword s k i => AddKeywordIndices s k i g
  end.
Definition grun (cs : list gcall) : Groups := foldl gstep emptyGroups cs.

(** * net/heartb/heart.go *)

(** the answer to one probe: an error, or the Result field *)
Inductive probe := ProbeErr | ProbeResult (r : Z).

(** int32 increment *)
Definition int32 (x : Z) : Z := (x + 2 ^ 31) mod 2 ^ 32 - 2 ^ 31.

(** net/heartb/heart.go:75-100 heart, on the global counter rpc *)
Definition heart (r : probe) (rpc : Z) : Z :=
  match r with
  | ProbeErr => int32 (rpc + 1)
  | ProbeResult v => if negb (v =? 1) then int32 (rpc + 1) else rpc
  end.

(** What happens around the counter: a probe of a monitor (lines 58-59), the
    test after it with the restart of the monitor's server (lines 60-71; the
    goroutine is waited for, line 69), and the HTTP handlers RestartSer and
    KillSer (lines 124-132, 147-164), which call restart (lines 102-114) too.
    [rpc++] is taken as one step; there is one counter for all monitors of the
    process (line 35). *)
Inductive hevent := HProbe (mon : nat) (r : probe) | HCheck (mon : nat) | HKill.

(** the counter and the restarts made by the monitors so far *)
Definition hstep (st : Z * list nat) (e : hevent) : Z * list nat :=
  let '(rpc, restarts) := st in
  match e with
  | HProbe _ r => (heart r rpc, restarts)
  | HCheck m => if rpc >? 3 then (0, restarts ++ [m]) else (rpc, restarts)
  | HKill => (0, restarts)
  end.
Definition hrun (es : list hevent) : Z * list nat := foldl hstep (0, []) es.

(** net/heartb/heart.go:57-72: one monitor alone, given the answers it gets *)
Definition monitorEvents (answers : list probe) : list hevent :=
  mjoin ((λ r, [HProbe 0 r; HCheck 0]) <$> answers).
Definition monitor (answers : list probe) : Z * list nat := hrun (monitorEvents answers).
