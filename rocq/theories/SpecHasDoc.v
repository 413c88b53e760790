(** Specification vocabulary for HasDoc next to running workers. *)
From Verif Require Import ModelHasDoc.

(** a worker is inside shard s as the engine sees it now *)
Definition workerIn (st : HS) (s : nat) : Prop := ∃ w, inside st !! w = Some (cur st, s).
(** the append of the next HasDoc iteration will copy the indexers *)
Definition full (st : HS) : Prop := ∃ arr, arrays st !! cur st = Some arr ∧ length arr = slen st.
(** shard s can be entered by an idle worker, now or after any further steps *)
Definition reachableAgain (grow : nat → nat) (n : nat) (st : HS) (s : nat) : Prop :=
  ∃ ls w st1 st2, hdRun grow n ls st = Some st1 ∧ hdStep grow n (HEnter w s) st1 = Some st2.
(** the value that the engine sees in shard s *)
Definition seen (st : HS) (s : nat) : option Z := val <$> cellAt st (cur st) s.
(** in the schedule every append that copies the indexers happens while no worker is
    inside any of them *)
Definition calm (grow : nat → nat) (n : nat) (ls : list hlabel) (st : HS) : Prop :=
  ∀ ls1 ls2 st1, ls = ls1 ++ HAppend :: ls2 → hdRun grow n ls1 st = Some st1 → full st1 → inside st1 = ∅.
