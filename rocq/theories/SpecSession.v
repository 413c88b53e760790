(** Specification vocabulary for sessions of the engine on the same files. *)
From Verif Require Import ModelSession ModelEngine SpecIndexer SpecSearch SpecRank SpecRoute SpecPipe SpecEngine SpecFlight SpecStore SpecEnd SpecLife SpecClose SpecWhole.

(** Executions of a session in which the goroutines of Store have the programs [recs]. *)
Definition session_reach (murmur : string → Z) (n : Z) (only reqsFirst : bool) (cap : chan → nat)
    (accepts : string → string → bool) (encode : DocData → option string) (nS : Z) (reqsFirst2 : bool)
    (nseg : nat) (recs : list (list ecall)) (progs : list (list wcall)) (s : wstate) : Prop :=
  ∃ p, pipe_reach murmur n only reqsFirst cap nseg recs p ∧ recovered (length recs) p ∧
    rtc (wholeStep murmur n only reqsFirst cap accepts encode nS reqsFirst2) (sessionInit nS (length recs) p progs) s.

(** Sessions one after the other, starting with empty files; in each of them one client
    goes through its phases and returns from the last Flush before the process ends.
    [hist] lists the programs of the clients, [dbs] is what the files hold at the end. *)
Inductive sessions (murmur : string → Z) (n : Z) (only reqsFirst : bool) (cap : chan → nat)
    (accepts : string → string → bool) (encode : DocData → option string) (nS : Z) (reqsFirst2 : bool)
    (iter : kv → list (string * string)) (decode : string → DocData * bool)
    (X : Ext) (stop : gset string) (o : SegOpts) (nseg : nat) : list (list (list wcall)) → (Z → kv) → Prop :=
  | sessions_none : sessions murmur n only reqsFirst cap accepts encode nS reqsFirst2 iter decode X stop o nseg [] (λ _, ∅)
  | sessions_more hist dbs recs phases s :
      sessions murmur n only reqsFirst cap accepts encode nS reqsFirst2 iter decode X stop o nseg hist dbs →
      recoverProgs iter decode X stop o nS dbs = Some recs → phases ≠ [] → Forall (λ ph, good_phase (pipeProg ph)) phases →
      session_reach murmur n only reqsFirst cap accepts encode nS reqsFirst2 nseg recs [wprogram phases] s → wreturned 0 s →
      sessions murmur n only reqsFirst cap accepts encode nS reqsFirst2 iter decode X stop o nseg
        (hist ++ [phases]) (dbAfter murmur nS dbs (wSLog s)).
(** All calls of all sessions. *)
Definition all_calls (hist : list (list (list wcall))) : list wcall := mjoin (wprogram <$> hist).

(** The same documents as [dbs] plus those given in the calls. *)
Definition stored_or_given (murmur : string → Z) (nS : Z) (decode : string → DocData * bool) (dbs : Z → kv)
    (cs : list wcall) (id : string) (d : DocData) : Prop :=
  stored murmur nS decode dbs id d ∨ given cs id d.
(** The ids of the calls are not in the files. *)
Definition fresh_ids (murmur : string → Z) (nS : Z) (dbs : Z → kv) (cs : list wcall) : Prop :=
  ∀ c id, c ∈ cs → call_id (pipeCall c) = Some id → dbs (storeShard murmur nS id) !! id = None.
