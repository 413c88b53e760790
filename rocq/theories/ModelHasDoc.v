(** HasDoc next to running workers.  riot.go:106-118 HasDoc appends an empty indexer to
    engine.indexers in every iteration.  engine.indexers is a slice of structs: when
    the append has to allocate, it copies every indexer, including its locks and
    counters, while workers may be inside methods of the old copies
    (indexer_worker.go:46-72, 115-148: engine.indexers[shard].Method(), whose receiver is the
    address of the element at the time of the call).

    Simplifications: of an indexer only one of its locks is kept, and one field that
    is stored in the struct itself and written under this lock (addCachePointer,
    numDocs, totalTokenLen, ...); the append with the assignment to engine.indexers is
    one step. *)
From Verif Require Export GoBase.

Record Cell := mkCell { lk : bool; val : Z }.
(** core.Indexer{} *)
Definition blank : Cell := mkCell false 0.

(** the arrays allocated so far (a list is as long as the capacity), the slice
    engine.indexers (array, length), and the workers that are inside a method: array
    and shard of their receiver *)
Record HS := mkHS {
  arrays : list (list Cell); cur : nat; slen : nat; inside : gmap nat (nat * nat) }.

Definition cellAt (st : HS) (a s : nat) : option Cell := arrays st !! a ≫= (λ l, l !! s).
Definition setCell (a s : nat) (c : Cell) (st : HS) : HS :=
  mkHS (alter (λ l, <[s := c]> l) a (arrays st)) (cur st) (slen st) (inside st).

Section HasDoc.
  (** the capacity append chooses for a full slice (depends on the Go version) *)
  Variable grow : nat → nat.
  Variable numShards : nat.

  (** riot.go:108: engine.indexers = append(engine.indexers, core.Indexer{}) *)
  Definition hAppend (st : HS) : option HS :=
    arr ← arrays st !! cur st;
    if (slen st <? length arr)%nat then
      Some (mkHS (arrays (setCell (cur st) (slen st) blank st)) (cur st) (S (slen st)) (inside st))
    else
      Some (mkHS (arrays st ++ [take (slen st) arr ++
                    replicate (Nat.max (grow (length arr)) (S (slen st)) - slen st) blank])
             (length (arrays st)) (S (slen st)) (inside st)).

  Inductive hlabel :=
    | HEnter (w s : nat)   (* worker w calls a method on shard s and takes its lock *)
    | HExit (w : nat)      (* worker w writes the field and gives the lock back *)
    | HAppend.             (* one iteration of some HasDoc call *)

  Definition hdStep (l : hlabel) (st : HS) : option HS :=
    match l with
    | HEnter w s =>
      match inside st !! w with
      | Some _ => None
      | None =>
        if (s <? numShards)%nat then
          c ← cellAt st (cur st) s;
          if lk c then None
          else let st1 := setCell (cur st) s (mkCell true (val c)) st in
               Some (mkHS (arrays st1) (cur st1) (slen st1) (<[w := (cur st, s)]> (inside st)))
        else None
      end
    | HExit w =>
      match inside st !! w with
      | None => None
      | Some (a, s) =>
        c ← cellAt st a s;
        let st1 := setCell a s (mkCell false (val c + 1)) st in
        Some (mkHS (arrays st1) (cur st1) (slen st1) (delete w (inside st)))
      end
    | HAppend => hAppend st
    end.

  Fixpoint hdRun (ls : list hlabel) (st : HS) : option HS :=
    match ls with
    | [] => Some st
    | l :: ls' => st' ← hdStep l st; hdRun ls' st'
    end.

  (** engine.go:304-307: after Init the slice holds numShards indexers; [extra]: unused
      capacity *)
  Definition hdInit (extra : nat) : HS :=
    mkHS [replicate (numShards + extra) blank] 0 numShards ∅.
End HasDoc.
