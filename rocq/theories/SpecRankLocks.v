(** Vocabulary for the ranker at the level of its lock. *)
From Verif Require Export ModelRankLocks SpecRank.

Definition krank_reach sortBy r programs (s : kstate) : Prop := rtc (kconc sortBy) (kInit r programs) s.
Definition kcrashed (s : kstate) : Prop := ∃ th, th ∈ kThreads s ∧ kPc th = KCrash.
Definition kfinished (s : kstate) : Prop := ∀ th, th ∈ kThreads s → kPc th = KIdle ∧ kCalls th = [].

(** Accesses of the maps: whether a goroutine may be reading or writing one of them *)
Definition kwrites (p : kpc) : bool := match p with KAssign _ _ => true | _ => false end.
Definition kreads (p : kpc) : bool :=
  match p with
  | KHas _ _ _ _ _ _ _ | KFields _ _ _ _ _ _ _ | KContent _ _ _ _ _ _ _ _ | KAttri _ _ _ _ _ _ _ _ _
  | KScore _ _ _ _ _ _ _ _ _ _ | KMiss _ _ _ _ _ _ _ => true
  | _ => false
  end.

(** The ranker after the first [m] writes *)
Definition after_writes (r : Ranker) (log : list (nat * rop)) (m : nat) : option Ranker := rrun (snd <$> take m log) r.
(** Each document scored with the ranker as it was after the number of writes beside it *)
Fixpoint scored_at (r : Ranker) (log : list (nat * rop)) (opts : RankOpts) (cnt : bool) (done : list (IndexedDoc * nat)) (acc : list ScoredDoc * Z)
    : option (list ScoredDoc * Z) :=
  match done with
  | [] => Some acc
  | (d, m) :: done => r' ← after_writes r log m; scored_at r log opts cnt done (rankStep r' opts cnt acc d)
  end.
Definition writes_of (cs : list kcall) : list rop := omap (λ c, match c with KWrite o => Some o | _ => None end) cs.
Definition ranks_of (cs : list kcall) : list kcall := omap (λ c, match c with KRank _ _ _ => Some c | _ => None end) cs.
Definition answered_by (t : nat) (l : list kanswer) : list kcall :=
  (λ a, KRank (fst <$> kaDone a) (kaOpts a) (kaCount a)) <$> filter (λ a, kaThread a = t) l.
Definition written_by_thread (t : nat) (log : list (nat * rop)) : list rop := snd <$> filter (λ e, e.1 = t) log.
Fixpoint rising (ms : list nat) (lo hi : nat) : Prop :=
  match ms with [] => (lo <= hi)%nat | m :: ms => (lo <= m)%nat ∧ rising ms m hi end.

(** Calls that do not panic: the content given is a string, the page asked for is sane. *)
Definition kcall_ok (c : kcall) : Prop :=
  match c with
  | KWrite o => string_content o
  | KRank _ o cnt => cnt = true ∨ 0 <= OutputOffset o ∧ 0 <= MaxOutputs o ∧ OutputOffset o + MaxOutputs o < 2^63
  end.
(** Steps needed for a call: at most six for each document *)
Definition kcall_steps (c : kcall) : nat := match c with KWrite _ => 7 | KRank docs _ _ => 2 + 6 * length docs end.
Definition kprogram_steps (programs : list (list kcall)) : nat := sum_list_with (sum_list_with kcall_steps) programs.
