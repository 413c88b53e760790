(** Specification vocabulary for Close. *)
From Verif Require Import ModelStore ModelClose SpecStore.

Definition close_reach accepts encode murmur n (progs : list (list ccall)) (s : cstate) : Prop :=
  rtc (closeStep accepts encode murmur n) (closeStart n progs) s.
(** All databases have been closed. *)
Definition all_down (n : Z) (s : cstate) : Prop := ∀ j, 0 <= j < n → ∃ p, csDown s !! Z.to_nat j = Some (Some p).
(** Nobody has anything left to do. *)
Definition close_quiet (s : cstate) : Prop := store_quiet (csBase s) ∧ Forall (eq []) (csRem s).

(** The value in the files after these calls of one client, if nothing that was to be
    deleted has been forgotten: the last write that was possible, removed, or untouched. *)
Definition closed_value accepts encode (old : option string) (cs : list scall) (id : string) (value : option string) : Prop :=
  (∃ v, last_written accepts encode cs id v ∧ value = Some v) ∨
  (SRemove id ∈ cs ∧ value = None) ∨
  (never_written accepts encode cs id ∧ value = old).
