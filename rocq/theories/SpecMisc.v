(** Specification vocabulary for the small components. *)
From Verif Require Import GoBase ModelMisc.

(** * Document-information tables *)

(** the ids of the documents added to a shard, in order, with repetitions *)
Definition addedTo (shard : Z) (cs : list gcall) : list string :=
  omap (λ c, match c with GAddDoc s id _ => if s =? shard then Some id else None | _ => None end) cs.
(** the last information given for a document in a shard *)
Definition lastInfo (shard : Z) (id : string) (cs : list gcall) : option DocInfoPtr :=
  last (omap (λ c, match c with
                   | GAddDoc s id' i => if (s =? shard) && seqb id' id then Some i else None
                   | _ => None end) cs).
(** how many of the added ids had been added before *)
Fixpoint repeats (seen ids : list string) : nat :=
  match ids with
  | [] => 0
  | id :: r => ((if bool_decide (id ∈ seen) then 1 else 0) + repeats (id :: seen) r)%nat
  end.
(** number of keyword rows added to a shard *)
Definition rowsTo (shard : Z) (cs : list gcall) : Z :=
  zlen (omap (λ c, match c with GAddKeyword s k _ => if s =? shard then Some k else None | _ => None end) cs).

(** the tables of a shard (absent = empty) *)
Definition shardOr (g : Groups) s := default (mkDIS ∅ 0) (DocInfoGroup g !! s).
Definition ishardOr (g : Groups) s := default (mkIIS ∅ f_zero) (InvertedIndexGroup g !! s).

(** * Heartbeat *)

(** a probe fails unless the server answers 1 *)
Definition failed (r : probe) : Prop := r ≠ ProbeResult 1.
Global Instance failed_dec r : Decision (failed r).
Proof. unfold failed. destruct r as [|v]; [by left|]. destruct (decide (v = 1)) as [->|]; [right; auto|left; congruence]. Defined.
Definition failures (rs : list probe) : Z := zlen (filter failed rs).
(** the answers of all monitors in a history *)
Definition answersOf (es : list hevent) : list probe :=
  omap (λ e, match e with HProbe _ r => Some r | _ => None end) es.
(** the answers one monitor got *)
Definition answersTo (m : nat) (es : list hevent) : list probe :=
  omap (λ e, match e with HProbe m' r => if Nat.eqb m m' then Some r else None | _ => None end) es.

(** an event after a history that sets the failure counter to 0 *)
Definition resets (es : list hevent) (e : hevent) : Prop :=
  match e with HKill => True | HCheck _ => (hrun es).1 > 3 | HProbe _ _ => False end.
