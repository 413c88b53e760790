(** Specification vocabulary for the engine with UseStore. *)
From Verif Require Import ModelWhole ModelEngine SpecIndexer SpecSearch SpecRank SpecRoute SpecPipe SpecEngine SpecFlight SpecStore SpecEnd SpecLife SpecClose.

Definition whole_reach (murmur : string → Z) (n : Z) (only reqsFirst : bool) (cap : chan → nat)
    (accepts : string → string → bool) (encode : DocData → option string) (nS : Z) (reqsFirst2 : bool)
    (nseg : nat) (progs : list (list wcall)) (s : wstate) : Prop :=
  rtc (wholeStep murmur n only reqsFirst cap accepts encode nS reqsFirst2) (wholeInit n nS nseg progs) s.

(** What the pipeline, resp. the store, is asked to do. *)
Definition pipeProg (cs : list wcall) : list ecall := pipeCall <$> cs.
Definition storeProg (cs : list wcall) : list scall := storeCall <$> cs.

(** Client [k] has returned from all its calls. *)
Definition wreturned (k : nat) (s : wstate) : Prop :=
  ∃ c, wClients s !! k = Some c ∧ wActs c = [] ∧ wCalls c = [].
(** Nothing is left to do: in the pipeline, and in the store. *)
Definition pipe_rest (s : wstate) : Prop := wNet s = [] ∧ Forall (λ p, pActs p = []) (wProcs s).
Definition store_rest (s : wstate) : Prop := Forall (eq WIdle) (wWork s) ∧ wDels s = [].
Definition all_returned (s : wstate) : Prop := Forall (λ c, wActs c = [] ∧ wCalls c = []) (wClients s).

(** The part of the state that searches depend on. *)
Definition pipePart (s : wstate) : pstate := mkPState (wProcs s) (wNet s) (wLog s).

(** Programs made of phases: Index and RemoveDoc calls for pairwise different ordinary
    ids, then Flush. *)
Definition wprogram (phases : list (list wcall)) : list wcall := mjoin ((λ ph, ph ++ [WFlush]) <$> phases).

(** These data were given to Index under this id. *)
Definition given (cs : list wcall) (id : string) (d : DocData) : Prop :=
  ∃ doc fo, WIndex doc d fo ∈ cs ∧ DocId doc = id.
(** The documents in the calls are those the segmenter makes of the data, which can be stored. *)
Definition segmented (X : Ext) (stop : gset string) (o : SegOpts) accepts encode (cs : list wcall) : Prop :=
  ∀ doc d fo, WIndex doc d fo ∈ cs →
    segDoc X stop o (DocId doc) d = Some doc ∧ ∃ v, writable accepts encode (DocId doc) d v.
Definition no_removal (cs : list wcall) : Prop := ∀ id fo, WRemove id fo ∉ cs.

(** Both answers list the same documents, as far as the scoring rejects none of them. *)
Definition same_documents (there : string → DocData → Prop) (req : SearchReq) (full1 full2 : list ScoredDoc) : Prop :=
  (∀ id d, there id d → score_accepts (ScoringCriteria (rqOpts req)) id (ddFields d)) →
  (sdDocId <$> full1) ≡ₚ (sdDocId <$> full2).

(** Executions in which every goroutine keeps getting turns; a turn of a goroutine that
    cannot move changes nothing.  Removal goroutines are numbered by their place in
    [wDels]; it is enough that the oldest one gets turns. *)
Definition wturn (step : wmove → wstate → option wstate) (m : wmove) (s : wstate) : wstate :=
  match step m s with Some s' => s' | None => s end.
Fixpoint wafter (step : wmove → wstate → option wstate) (ms : nat → wmove) (s : wstate) (i : nat) : wstate :=
  match i with O => s | S i' => wturn step (ms i') (wafter step ms s i') end.
Definition wfair (clients procs workers : nat) (ms : nat → wmove) : Prop :=
  ∀ m, (∃ k, m = WMClient k ∧ (k < clients)%nat) ∨ (∃ k, m = WMProc k ∧ (k < procs)%nat) ∨
       (∃ j, m = WMWorker j ∧ (j < workers)%nat) ∨ m = WMDel 0 →
  ∀ i, ∃ j, (i <= j)%nat ∧ ms j = m.
Definition at_rest (s : wstate) : Prop := all_returned s ∧ pipe_rest s ∧ store_rest s.

(** Operations on the database files: carried out, and asked for by the calls. *)
Inductive dbop := PutOp (id : string) (v : option string) | DelOp (id : string).
Definition store_op (e : sevent) : option dbop :=
  match e with EvWrite id v => Some (PutOp id v) | EvDel id => Some (DelOp id) | _ => None end.
Definition asked_op (accepts : string → string → bool) (encode : DocData → option string) (c : wcall) : option dbop :=
  match c with
  | WIndex doc d _ =>
    if decide (DocId doc = "0") then None
    else Some (PutOp (DocId doc) match encode d with Some v => if accepts (DocId doc) v then Some v else None | None => None end)
  | WRemove id _ => if decide (id = "0") then None else Some (DelOp id)
  | WFlush => None
  end.
Global Instance dbop_eq_dec : EqDecision dbop.
Proof. solve_decision. Defined.
