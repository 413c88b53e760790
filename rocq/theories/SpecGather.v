(** Specification vocabulary for gathering replies. *)
From Verif Require Import ModelGather.

(** the replies a request should be answered with *)
Definition wanted (hosts : nat) (replies : nat * nat → bool) (r : nat) : list (nat * nat) :=
  filter (λ k, replies k = true) (pair r <$> seq 0 hosts).

(** schedules in which no request starts while another one is being answered *)
Definition oneAtATime (hosts : nat) (replies : nat * nat → bool) (ls : list glabel) : Prop :=
  ∀ ls1 r ls2 st, ls = ls1 ++ GStart r :: ls2 → gRun hosts replies ls1 gInit = Some st → waiting st = ∅.

(** schedules in which the appends do not overlap *)
Definition apart (hosts : nat) (replies : nat * nat → bool) (ls : list glabel) : Prop :=
  ∀ ls1 k ls2 st, ls = ls1 ++ GRead k :: ls2 → gRun hosts replies ls1 gInit = Some st →
    ∀ k' snap, posts st !! k' ≠ Some (PRead snap).
