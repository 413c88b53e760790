(** Specification vocabulary for concurrent searches. *)
From Verif Require Import ModelFlight.

(** [sh] was the contents of shard [i] at some moment from [t1] to [t2]. *)
Definition seen (ws : list (list Shard)) (i t1 t2 : nat) (sh : Shard) : Prop :=
  ∃ t w, (t1 <= t <= t2)%nat ∧ ws !! t = Some w ∧ w !! i = Some sh.

(** What a ranker makes of one document found by the lookup: nothing if it does not
    know it or the criterion gives no score. *)
Definition judged (o : RankOpts) (x : IndexedDoc * Shard) : option ScoredDoc :=
  let '(d, sh) := x in
  match rDocs (shRk sh) !! ixDocId d with
  | None => None
  | Some _ =>
    match ScoringCriteria o d (default INil (rFields (shRk sh) !! ixDocId d)) with
    | [] => None
    | s :: l => Some (mkEntry (shRk sh) d (s :: l))
    end
  end.

(** The answer [rp] of shard [i] to [req] was computed between the moments [t1] and
    [t2]: from the index at one moment [t], and from the ranker at moments not before
    [t], in order, one for each document found. *)
Definition answered_between (log2 : F → F)
    (sortBy : (ScoredDoc → ScoredDoc → bool) → list ScoredDoc → list ScoredDoc)
    (ws : list (list Shard)) (i : nat) (req : SearchReq) (t1 t2 : nat) (rp : Reply) : Prop :=
  ∃ t sh docs num, (t1 <= t <= t2)%nat ∧ seen ws i t t sh ∧
    Lookup log2 (shIx sh) (rqTokens req) (rqLabels req) (rqDocIds req) (rqCountOnly req)
      (Some (rqLogic req)) = Some (docs, num) ∧
    if rqCountOnly req then rp = mkReply None num
    else match docs with
    | [] => rp = mkReply None 0
    | _ :: _ =>
      if rqOrderless req then rp = mkReply (Some (bareEntry <$> docs)) (zlen docs)
      else ∃ judges page, docs = judges.*1 ∧
             (∃ ts, StronglySorted le ts ∧
               Forall2 (λ (x : IndexedDoc * Shard) u, (t <= u <= t2)%nat ∧ seen ws i u u x.2) judges ts) ∧
             let found := omap (judged (rqOpts req)) judges in
             let o := shardOpts (rqOpts req) in
             let sorted := sortScored sortBy (ReverseOrder (rqOpts req)) found in
             zslice sorted (maxOutput o (zlen sorted)).1 (maxOutput o (zlen sorted)).2 = Some page ∧
             rp = mkReply (Some page) (zlen found)
    end.

(** The shards whose answers a search has received *)
Definition heardOf (got : list (option (nat * Reply))) : list nat :=
  omap (λ e : option (nat * Reply), match e with Some (i, _) => Some i | None => None end) got.

(** Goroutine [k] or the surroundings get a turn; if they cannot move, nothing happens. *)
Definition fturn (step : flabel → fstate → option fstate) (l : flabel) (s : fstate) : fstate :=
  match step l s with Some s' => s' | None => s end.
Fixpoint fafter (step : flabel → fstate → option fstate) (ls : nat → flabel) (s : fstate) (i : nat) : fstate :=
  match i with
  | O => s
  | S i' => fturn step (ls i') (fafter step ls s i')
  end.
(** Each of the [N] goroutines gets turns again and again. *)
Definition ffair (N : nat) (ls : nat → flabel) : Prop :=
  ∀ k, (k < N)%nat → ∀ i, ∃ j late, (i <= j)%nat ∧ ls j = LProc k late.
(** Nobody writes. *)
Definition read_only (l : flabel) : Prop := match l with LProc _ _ => True | LWrite _ _ => False end.

(** Every search of the programs has been made and answered, each once. *)
Definition all_answered (programs : list (list SearchReq)) (s : fstate) : Prop :=
  (∀ p, p ∈ fProcs s → match p with PIdle todo => todo = [] | PSend _ _ _ _ | PGather _ _ _ _ => False | _ => True end) ∧
  (fReqs s).*1 ≡ₚ mjoin programs ∧
  (faSearch <$> fAnswers s) ≡ₚ seq 0 (length (fReqs s)).

(** Offset and limit that cannot make a slice expression fail. *)
Definition paging_ok (req : SearchReq) : Prop :=
  0 <= OutputOffset (rqOpts req) ∧ 0 <= MaxOutputs (rqOpts req) ∧
  OutputOffset (rqOpts req) + MaxOutputs (rqOpts req) < 2^63.
(** The lookup of [req] in the index of [sh] comes back. *)
Definition looks_up (log2 : F → F) (req : SearchReq) (sh : Shard) : Prop :=
  is_Some (Lookup log2 (shIx sh) (rqTokens req) (rqLabels req) (rqDocIds req) (rqCountOnly req) (Some (rqLogic req))).
(** Writers leave shards on which [P] holds. *)
Definition writes_in (P : Shard → Prop) (l : flabel) : Prop := match l with LProc _ _ => True | LWrite _ sh => P sh end.
