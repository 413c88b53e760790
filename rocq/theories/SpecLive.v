(** Specification vocabulary: executions in which every goroutine keeps getting turns. *)
From Verif Require Import ModelPipe SpecPipe.

(** Goroutine [k] gets a turn; if it cannot move, nothing happens. *)
Definition turn (step : nat → pstate → option pstate) (k : nat) (s : pstate) : pstate :=
  match step k s with Some s' => s' | None => s end.
(** The state after the first [i] turns of the schedule [ks]. *)
Fixpoint after (step : nat → pstate → option pstate) (ks : nat → nat) (s : pstate) (i : nat) : pstate :=
  match i with
  | O => s
  | S i' => turn step (ks i') (after step ks s i')
  end.
(** Each of the [N] goroutines gets turns again and again. *)
Definition fair (N : nat) (ks : nat → nat) : Prop := ∀ k, (k < N)%nat → ∀ i, ∃ j, (i <= j)%nat ∧ ks j = k.

(** The calls that bring documents or removals to the indexers and rankers *)
Definition doc_added (o : op) : option (DocIndex * bool) :=
  match o with OpAdd (Some d) f => Some (d, f) | _ => None end.
Definition doc_removed (o : op) : option (string * bool) :=
  match o with OpRemove id f => Some (id, f) | _ => None end.
(** What clients ask for: a document for shard [i], given by the hash of id and content *)
Definition asked_add (murmur : string → Z) (n i : Z) (c : ecall) : option (DocIndex * bool) :=
  match c with
  | EIndex d _ ct _ f =>
      if decide (DocId d ≠ "0" ∧ u32 (murmur (String.append (DocId d) ct)) `mod` n = i) then Some (d, f) else None
  | _ => None
  end.
Definition asked_removal (c : ecall) : option (string * bool) :=
  match c with ERemove id f => Some (id, f) | _ => None end.
(** ... and the ranker entry of a document, resp. its removal *)
Definition asked_rank (murmur : string → Z) (n : Z) (only : bool) (i : Z) (c : ecall) : option rop :=
  match c with
  | EIndex d f ct a _ =>
      if decide (DocId d ≠ "0" ∧ u32 (murmur (String.append (DocId d) ct)) `mod` n = i)
      then Some (ROAdd (DocId d) f (if only then [] else [IStr ct; a])) else None
  | ERemove id _ => if decide (id ≠ "0") then Some (RORemove id) else None
  | EFlush => None
  end.
