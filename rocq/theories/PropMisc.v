(** C54, C55, C56: heartbeat monitor, memory statistics, document-information tables. *)
From Verif Require Import GoBase ModelMisc SpecMisc ProofMisc.

(** * C54 *)

(** One monitor alone restarts its server once per four failed probes, however
    many probes succeeded in between. *)
Theorem C54_monitor_counts_all_failures :
  ∀ answers : list probe,
    monitor answers = (failures answers mod 4, replicate (Z.to_nat (failures answers / 4)) 0%nat).
Proof. exact monitor_lem. Qed.
Print Assumptions C54_monitor_counts_all_failures.

Example C54_monitor_example :
  monitor [ProbeErr; ProbeResult 1; ProbeResult 0; ProbeResult 1; ProbeErr; ProbeErr; ProbeErr] = (1, [0%nat]).
Proof. by vm_compute. Qed.

(** So consecutive failures are not needed: a restart can happen although any
    two failed probes are more than k probes apart, for every k. *)
Theorem C54_restart_without_consecutive_failures :
  ∀ k : nat, ∃ answers : list probe,
    (monitor answers).2 = [0%nat] ∧
    ∀ i j ri rj, answers !! i = Some ri → answers !! j = Some rj → failed ri → failed rj → (i < j)%nat →
      (k < j - i)%nat.
Proof. exact spread_lem. Qed.
Print Assumptions C54_restart_without_consecutive_failures.

(** In any history of probes, tests and kills of any number of monitors, a test
    restarts the server exactly if more than three probes of all monitors
    failed since the counter was last set to 0. *)
Theorem C54_check_restarts_iff :
  ∀ (es1 : list hevent) (e : hevent) (es2 : list hevent) (m : nat),
    resets es1 e →
    (∀ a e' b, es2 = a ++ e' :: b → ¬ resets (es1 ++ e :: a) e') →
    failures (answersOf es2) < 2 ^ 31 →
    (hrun ((es1 ++ e :: es2) ++ [HCheck m])).2 =
      (hrun (es1 ++ e :: es2)).2 ++ (if 3 <? failures (answersOf es2) then [m] else []).
Proof. exact check_lem. Qed.
Print Assumptions C54_check_restarts_iff.

(** The counter is shared: a monitor restarts its server although every probe
    of that server succeeded. *)
Theorem C54_monitors_share_counter_refuted :
  ∃ es : list hevent,
    (hrun es).2 = [1%nat] ∧ answersTo 1 es ≠ [] ∧ Forall (λ r, r = ProbeResult 1) (answersTo 1 es).
Proof.
  exists [HProbe 0 ProbeErr; HCheck 0; HProbe 0 ProbeErr; HCheck 0; HProbe 0 ProbeErr; HCheck 0;
          HProbe 1 (ProbeResult 1); HProbe 0 ProbeErr; HCheck 1].
  split; [by vm_compute|split; [done|by repeat constructor]].
Qed.
Print Assumptions C54_monitors_share_counter_refuted.

Example C54_check_example :
  let es2 := [HProbe 0 ProbeErr; HProbe 1 ProbeErr; HProbe 0 (ProbeResult 1); HProbe 0 (ProbeResult 2); HProbe 1 ProbeErr] in
  resets [] HKill ∧ failures (answersOf es2) = 4 ∧ (hrun (([] ++ HKill :: es2) ++ [HCheck 7])).2 = [7%nat].
Proof. by vm_compute. Qed.

(** * C55 *)

(** Unit conversions truncate; nested divisions lose nothing. *)
Theorem C55_units :
  ∀ d, 0 <= d → ToKB d = d / 1024 ∧ ToMB d = d / 1024 ^ 2 ∧ ToGB d = d / 1024 ^ 3.
Proof. exact units_lem. Qed.
Print Assumptions C55_units.

(** The memory (disk) used since initialisation is the difference of two
    unsigned readings: it wraps around when memory was freed. *)
Theorem C55_used_wraps :
  ∀ init cur, 0 <= init < 2 ^ 64 → 0 <= cur < 2 ^ 64 →
    usedSince init (cur, false) = (if init <=? cur then cur - init else 2 ^ 64 - (init - cur), false) ∧
    ∀ v, usedSince init (v, true) = (0, true).
Proof. exact used_lem. Qed.
Print Assumptions C55_used_wraps.

Example C55_example :
  ToMB 5000000 = 4 ∧ usedSince 1000 (400, false) = (18446744073709551016, false).
Proof. by vm_compute. Qed.

(** * C56 *)

(** A document exists in the tables iff it was added to some shard. *)
Theorem C56_exists_iff_added :
  ∀ cs id, IsDocExist id (grun cs) = true ↔ ∃ shard info, GAddDoc shard id info ∈ cs.
Proof. exact exists_lem. Qed.
Print Assumptions C56_exists_iff_added.

(** The table of a shard holds the last information given for each document. *)
Theorem C56_last_info :
  ∀ cs shard id, DocInfos (shardOr (grun cs) shard) !! id = lastInfo shard id cs.
Proof. intros. apply infos_last. Qed.
Print Assumptions C56_last_info.

(** The counter of a shard counts calls, i.e. distinct documents plus overwrites. *)
Theorem C56_counter :
  ∀ cs shard,
    NumDocs (shardOr (grun cs) shard) = u64 (zlen (addedTo shard cs)) ∧
    zlen (addedTo shard cs) =
      Z.of_nat (size (DocInfos (shardOr (grun cs) shard))) + Z.of_nat (repeats [] (addedTo shard cs)).
Proof. intros. apply count_lem. Qed.
Print Assumptions C56_counter.

(** The float32 row counter counts exactly up to 2^24 and stops there. *)
Theorem C56_row_counter_saturates :
  ∀ cs shard,
    TotalTokenLen (ishardOr (grun cs) shard) = f32_of_Z (Z.min (rowsTo shard cs) (2 ^ 24)).
Proof. intros. apply rows_lem. Qed.
Print Assumptions C56_row_counter_saturates.

Example C56_example :
  let cs := [GAddShard 0; GAddDoc 0 "a" 1; GAddDoc 1 "b" 2; GAddDoc 0 "a" 3; GAddKeyword 0 "k" 4] in
  IsDocExist "a" (grun cs) = true ∧ IsDocExist "c" (grun cs) = false ∧
  NumDocs (shardOr (grun cs) 0) = 2 ∧ size (DocInfos (shardOr (grun cs) 0)) = 1%nat ∧
  DocInfos (shardOr (grun cs) 0) !! "a" = Some 3 ∧ rowsTo 0 cs = 1.
Proof. by vm_compute. Qed.
