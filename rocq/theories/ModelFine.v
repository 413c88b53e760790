(** The write pipeline (ModelPipe.v) with the calls of the indexer methods carried out
    at the level of their locks (ModelLocks.v): indexer_worker.go:46-73 calls
    AddDocToCache and RemoveDocToCache (core/indexer.go:116-177, 260-297), searches call
    Lookup at any time (indexer_worker.go:117-148).

    A worker that is about to call an indexer method first starts the call; then the call
    makes its own steps, mixed in any way with the steps of everybody else; when it has
    returned, the worker goes on and the call is entered in the log.

    Simplifications: those of ModelPipe.v, except that a call of an indexer method is not
    one step, and those of ModelLocks.v; a panic stops only the goroutine that
    panics. *)
From Verif Require Export ModelPipe ModelLocks.

(** A shard: its indexer with locks and goroutines ([ModelLocks.cstate]; goroutine 0
    adds, goroutine 1 removes, the others search), and the processes of the pipeline that
    wait for goroutine 0 and for goroutine 1 to return from a call. *)
Record fshard := mkFShard { fsC : cstate; fsAdding : option nat; fsRemoving : option nat }.
Record fine := mkFine { fPipe : pstate; fShards : list fshard }.

(** Goroutine of the call, and the call (indexer_worker.go:48, 65) *)
Definition sideOf (o : op) : nat := match o with OpAdd _ _ => 0 | OpRemove _ _ => 1 end.
Definition callOf (o : op) : tcall := match o with OpAdd d f => TAdd d f | OpRemove id f => TRem id f end.
Definition waiter (o : op) (sh : fshard) : option nat :=
  match o with OpAdd _ _ => fsAdding sh | OpRemove _ _ => fsRemoving sh end.
Definition setWaiter (o : op) (w : option nat) (sh : fshard) : fshard :=
  match o with
  | OpAdd _ _ => mkFShard (fsC sh) w (fsRemoving sh)
  | OpRemove _ _ => mkFShard (fsC sh) (fsAdding sh) w
  end.
Definition setC (c : cstate) (sh : fshard) : fshard := mkFShard c (fsAdding sh) (fsRemoving sh).

(** The goroutine has returned from its call. *)
Definition isIdle (t : nat) (c : cstate) : bool :=
  match cThreads c !! t with Some (mkThread [] Idle) => true | _ => false end.
(** The goroutine enters the call. *)
Definition startCall (o : op) (c : cstate) : cstate :=
  mkCState (<[sideOf o := mkThread [] (enter (callOf o))]> (cThreads c)) (cShard c).

Inductive fmove := MProc (k : nat) | MLock (i t : nat).

Section Fine.
  Variable murmur : string → Z.
  Variable n : Z.
  Variable only reqsFirst : bool.
  Variable cap : chan → nat.
  Variable log2 : F → F.
  Variable sortDocs : list DocIndex → list DocIndex.
  Notation pstep := (pstep murmur n only reqsFirst cap).

  (** One step: process [k] of the pipeline, or goroutine [t] of the indexer of shard [i].
      For a call of an indexer method (indexer_worker.go:48, 65) process [k] has two
      steps, its start and the return. *)
  Definition fineDo (m : fmove) (s : fine) : option fine :=
    match m with
    | MProc k =>
      p ← sProcs (fPipe s) !! k;
      match pActs p with
      | ADo (EvIx i o) :: _ =>
        sh ← fShards s !! Z.to_nat i;
        match waiter o sh with
        | None =>
          if isIdle (sideOf o) (fsC sh)
          then Some (mkFine (fPipe s)
                 (<[Z.to_nat i := setWaiter o (Some k) (setC (startCall o (fsC sh)) sh)]> (fShards s)))
          else None
        | Some k' =>
          if decide (k' = k) then
            if isIdle (sideOf o) (fsC sh)
            then p' ← pstep k (fPipe s); Some (mkFine p' (<[Z.to_nat i := setWaiter o None sh]> (fShards s)))
            else None
          else None
        end
      | _ => p' ← pstep k (fPipe s); Some (mkFine p' (fShards s))
      end
    | MLock i t =>
      sh ← fShards s !! i;
      c ← cstep log2 sortDocs t (fsC sh);
      Some (mkFine (fPipe s) (<[i := setC c sh]> (fShards s)))
    end.
  Definition fineStep (s s' : fine) : Prop := ∃ m, fineDo m s = Some s'.
  Definition fineSched (ms : list fmove) (s : fine) : option fine := foldlM (λ s m, fineDo m s) ms s.

  (** engine.go:317-348: after Init; [x] is the empty indexer, [stale] its removeCache
      array, [looks i] the searches that the goroutines of shard [i] will make. *)
  Definition fineInit (numGseThreads : nat) (programs : list (list ecall)) (x : Indexer) (stale : list string)
      (looks : nat → list (list query)) : fine :=
    mkFine (pipeInit n numGseThreads programs)
      ((λ i, mkFShard (shardStart x stale [] [] (looks i)) None None) <$> seq 0 (Z.to_nat n)).
End Fine.
