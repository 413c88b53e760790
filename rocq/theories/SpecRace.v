(** Data races: two goroutines inside stretches of code that access one variable, at least
    one of them writing.  (Two accesses that no lock keeps apart can be made at the same
    time, and only then.) *)
From Verif Require Export ModelRace SpecLocks SpecFine.

Definition conflict (a b : mode) : Prop := a = Wr ∨ b = Wr.
Definition racing (c : cstate) (t u : nat) (l : place) : Prop :=
  t ≠ u ∧ ∃ p q a b, pc_of t c = Some p ∧ pc_of u c = Some q ∧
    touches p (cShard c) l = Some a ∧ touches q (cShard c) l = Some b ∧ conflict a b.
(** a HasDoc now, by some other goroutine, would read docsState while it is written *)
Definition hasdoc_races (c : cstate) : Prop := ∃ t p, pc_of t c = Some p ∧ touches p (cShard c) Table = Some Wr.

(** What a variable holds *)
Definition same_at (l : place) (s s' : shard) : Prop :=
  match l with
  | AddPtr => length (addCache (shIx s')) = length (addCache (shIx s))
  | AddCells => ∀ i d d', addCache (shIx s) !! i = Some d → addCache (shIx s') !! i = Some d' → d' = d
  | RemPtr => length (removeCache (shIx s')) = length (removeCache (shIx s))
  | RemCell i => (removeCache (shIx s') ++ shStale s') !! i = (removeCache (shIx s) ++ shStale s) !! i
  | Table => table (shIx s') = table (shIx s) ∧ docsState (shIx s') = docsState (shIx s) ∧ numDocs (shIx s') = numDocs (shIx s) ∧
      totalTokenLen (shIx s') = totalTokenLen (shIx s) ∧ docTokenLens (shIx s') = docTokenLens (shIx s)
  end.

(** [s] and [s'] look the same to a goroutine that touches the variables [T] only. *)
Definition same_locks (s s' : shard) : Prop :=
  shAdd s' = shAdd s ∧ shRem s' = shRem s ∧ shTab s' = shTab s ∧ shReaders s' = shReaders s ∧
  initOptions (shIx s') = initOptions (shIx s).
Definition alike (p : pc) (s s' : shard) : Prop :=
  same_locks s s' ∧ ∀ l, touches p s l ≠ None → same_at l s s'.
(** Both outcomes are alike where [p] touches, with the same answers given. *)
Definition same_outcome (p : pc) (s1 s2 : shard) (r1 r2 : option (pc * shard)) : Prop :=
  match r1, r2 with
  | Some (p1, s1'), Some (p2, s2') => p1 = p2 ∧ same_locks s1' s2' ∧ (∀ l, touches p s1 l ≠ None → same_at l s1' s2') ∧
      ∃ new, shLog s1' = shLog s1 ++ new ∧ shLog s2' = shLog s2 ++ new
  | None, None => True
  | _, _ => False
  end.
