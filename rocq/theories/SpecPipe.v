(** Specification vocabulary for the concurrent write pipeline. *)
From Verif Require Import ModelPipe SpecIndexer SpecRoute.

Definition zsum (l : list Z) : Z := foldr Z.add 0 l.

(** Completions that a request still owes: document additions, removals (one per
    shard), forced updates (one per shard; [n] shards). *)
Definition docs_owed (m : msg) : Z :=
  match m with
  | MSeg (EIndex d _ _ _ _) => if decide (DocId d = "0") then 0 else 1
  | MAdd _ (Some _) _ => 1
  | _ => 0
  end.
Definition removals_owed (m : msg) : Z :=
  match m with MRem _ id _ => if decide (id = "0") then 0 else 1 | _ => 0 end.
Definition forced_owed (n : Z) (m : msg) : Z :=
  match m with
  | MSeg (EIndex _ _ _ _ true) => n
  | MAdd _ _ true | MRem _ _ true => 1
  | _ => 0
  end.

(** ... and a goroutine: for the requests it is about to send and the completions it
    is about to count.  A client that has not yet counted its request owes nothing. *)
Definition act_owed (w : msg → Z) (fin : counter) (a : act) : Z :=
  match a with
  | ASend _ m => w m
  | ADo (EvInc c) => if decide (c = fin) then 1 else 0
  | _ => 0
  end.
Definition not_counted (req : counter) (acts : list act) : bool :=
  existsb (λ a, match a with ADo (EvInc c) => bool_decide (c = req) | _ => false end) acts.
Definition proc_owed (w : msg → Z) (req fin : counter) (p : proc) : Z :=
  if not_counted req (pActs p) then 0 else zsum (act_owed w fin <$> pActs p).
Definition in_flight (w : msg → Z) (req fin : counter) (s : pstate) : Z :=
  zsum (proc_owed w req fin <$> sProcs s) + zsum ((λ cm, w cm.2) <$> sNet s).

(** Executions from the state after Init. *)
Definition pipe_reach (murmur : string → Z) (n : Z) (only reqsFirst : bool) (cap : chan → nat)
    (nseg : nat) (programs : list (list ecall)) (s : pstate) : Prop :=
  rtc (pipeStep murmur n only reqsFirst cap) (pipeInit n nseg programs) s.

(** Client [k] has returned from all its calls. *)
Definition returned (k : nat) (s : pstate) : Prop :=
  ∃ p, sProcs s !! k = Some p ∧ pActs p = [] ∧ pCalls p = [].
(** Nothing is left to do. *)
Definition quiescent (s : pstate) : Prop :=
  sNet s = [] ∧ Forall (λ p, pActs p = [] ∧ pCalls p = []) (sProcs s).

(** Programs made of phases: Index and RemoveDoc calls for pairwise different ordinary
    ids, in any order and with any force flags, then Flush. *)
Definition write_call (c : ecall) : Prop :=
  match c with
  | EIndex d _ _ _ _ => good_doc d ∧ DocId d ≠ "0"
  | ERemove id _ => id ≠ "0"
  | EFlush => False
  end.
Definition call_id (c : ecall) : option string :=
  match c with EIndex d _ _ _ _ => Some (DocId d) | ERemove id _ => Some id | EFlush => None end.
Definition good_phase (ph : list ecall) : Prop := Forall write_call ph ∧ NoDup (omap call_id ph).
Definition program (phases : list (list ecall)) : list ecall :=
  mjoin ((λ ph, ph ++ [EFlush]) <$> phases).

(** The calls other than those that index a document under the reserved id "0". *)
Definition not_zero (c : ecall) : bool :=
  match c with EIndex d _ _ _ _ => if string_dec (DocId d) "0" then false else true | _ => true end.
Definition ordinary (cs : list ecall) : list ecall := filter (λ c, not_zero c = true) cs.
