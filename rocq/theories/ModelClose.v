(** Model of Close (engine.go): the store side of a running engine whose databases are
    closed while clients, workers and removal goroutines go on. *)
From Verif Require Import ModelStore.

Section Close.
  Variable accepts : string → string → bool.
  Variable encode : DocData → option string.
  Variable murmur : string → Z.
  Variable storeShards : Z.

  (** What a client does: one of the calls of ModelStore.v, or db.Close() of one shard. *)
  Inductive ccall := CCall (c : scall) | CDown (j : nat).
  (** engine.go:852-859 Close, with UseStore: Flush, then the databases one after the other *)
  Definition CloseCalls : list ccall := CCall SFlush :: (CDown <$> seq 0 (Z.to_nat storeShards)).

  (** [csDown]: for every store shard, None while it is open, else the number of events before
      it was closed.  A client of [csBase] has the call it is working on, [csRem] what comes after. *)
  Record cstate := mkCl { csBase : sstate; csRem : list (list ccall); csDown : list (option nat) }.

  Inductive cmove := CM (m : smove) | CNext (k : nat).
  (** [CM]: a move of ModelStore.v (which does not look at the databases: all errors of Set and
      Delete are ignored, store_worker.go:57, 69).  [CNext k]: client [k] has returned from a
      call and makes the next one; a second db.Close() has no effect. *)
  Definition cmoveStep (m : cmove) (s : cstate) : option cstate :=
    match m with
    | CM m => b ← smoveStep accepts encode murmur storeShards m (csBase s); Some (mkCl b (csRem s) (csDown s))
    | CNext k =>
      let b := csBase s in
      c ← ssClients b !! k; r ← csRem s !! k;
      match scCalls c, scActs c, r with
      | [], [], CCall call :: r' =>
        Some (mkCl (mkSS (<[k := mkSC [call] [] (scReg c)]> (ssClients b)) (ssWork b) (ssDels b) (ssLog b))
                   (<[k := r']> (csRem s)) (csDown s))
      | [], [], CDown j :: r' =>
        Some (mkCl b (<[k := r']> (csRem s))
                   (match csDown s !! j with Some None => <[j := Some (length (ssLog b))]> (csDown s) | _ => csDown s end))
      | _, _, _ => None
      end
    end.
  Definition closeStep (s s' : cstate) : Prop := ∃ m, cmoveStep m s = Some s'.
  Definition csched (ms : list cmove) (s : cstate) : option cstate := foldlM (λ s m, cmoveStep m s) ms s.
  Definition closeStart (programs : list (list ccall)) : cstate :=
    mkCl (storeStart storeShards ((λ _, []) <$> programs)) programs (replicate (Z.to_nat storeShards) None).

  (** The files of shard [j].  Operations on a closed database fail and change nothing (goleveldb
      ErrClosed, bbolt ErrDatabaseNotOpen, badger ErrBlockedWrites). *)
  Definition fileAt (dbs : Z → kv) (s : cstate) (j : Z) : kv :=
    let log := ssLog (csBase s) in
    dbAfter murmur storeShards dbs
      (match csDown s !! Z.to_nat j with Some (Some p) => take p log | _ => log end) j.
End Close.
