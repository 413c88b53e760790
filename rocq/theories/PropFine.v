(** C104, C105: the write pipeline with the indexer methods at the level of their locks. *)
From Verif Require Import ModelPipe SpecIndexer SpecRank SpecRoute SpecPipe SpecEnd SpecFine ProofIxThms ProofLocks ProofFine ProofFineSim ProofFineThms ProofFineCycle ProofFineLive ExampleTools PropPipe PropLocks.

(** * C104 *)
(** Additions and removals kept apart: in no shard are the two workers inside the indexer
    at the same time ... *)
Theorem C104_one_worker_at_a_time murmur n only reqsFirst cap log2 sortDocs nseg progs x0 stale looks s i sh :
  1 <= n < 2^32 → kept_apart progs →
  fine_reach murmur n only reqsFirst cap log2 sortDocs nseg progs x0 stale looks s → fShards s !! i = Some sh →
  fsAdding sh = None ∨ fsRemoving sh = None.
Proof. intros Hn Hap. exact (fine_one murmur n only reqsFirst cap log2 sortDocs Hn nseg progs Hap x0 stale looks s i sh). Qed.
Print Assumptions C104_one_worker_at_a_time.
(** ... and between its calls a shard's indexer is the one that the sequential calls so
    far make: the steps of the calls, and the searches, leave no other trace. *)
Theorem C104_index_is_the_sequential_one murmur n only reqsFirst cap log2 sortDocs nseg progs x0 stale looks s i sh :
  1 <= n < 2^32 → kept_apart progs →
  fine_reach murmur n only reqsFirst cap log2 sortDocs nseg progs x0 stale looks s → fShards s !! i = Some sh →
  fsAdding sh = None → fsRemoving sh = None →
  run sortDocs (ixCalls (Z.of_nat i) (sLog (fPipe s))) x0 = Some (index_of sh).
Proof.
  intros Hn Hap Hr Hi H1 H2.
  exact (proj2 (fine_index murmur n only reqsFirst cap log2 sortDocs Hn nseg progs Hap x0 stale looks s i sh Hr Hi H1 H2)).
Qed.
Print Assumptions C104_index_is_the_sequential_one.
(** The pipeline itself behaves as in ModelPipe.v, for all programs. *)
Theorem C104_pipeline_unchanged murmur n only reqsFirst cap log2 sortDocs nseg progs x0 stale looks s :
  fine_reach murmur n only reqsFirst cap log2 sortDocs nseg progs x0 stale looks s →
  pipe_reach murmur n only reqsFirst cap nseg progs (fPipe s).
Proof. exact (fine_pipe_any murmur n only reqsFirst cap log2 sortDocs nseg progs x0 stale looks s). Qed.
Print Assumptions C104_pipeline_unchanged.
(** So with no call under way, the shards are some that the theorems on searches (C78,
    C97, C98, C100) speak of. *)
Theorem C104_shards_of_the_engine murmur n only reqsFirst cap log2 sortDocs nseg progs x0 stale looks s :
  1 <= n < 2^32 → kept_apart progs →
  fine_reach murmur n only reqsFirst cap log2 sortDocs nseg progs x0 stale looks s → Forall at_ease (fShards s) →
  ∃ shards, engine_shards sortDocs x0 only n (fPipe s) shards ∧ ModelEngine.shIx <$> shards = index_of <$> fShards s.
Proof. intros Hn Hap. exact (fine_engine murmur n only reqsFirst cap log2 sortDocs Hn nseg progs Hap x0 stale looks s). Qed.
Print Assumptions C104_shards_of_the_engine.
(** C39 without the assumption that a call of an indexer method is one step. *)
Theorem C104_flushed_writes_are_visible murmur n only reqsFirst cap log2 sortDocs nseg phases x0 stale looks io s i sh :
  1 <= n < 2^32 → Forall good_phase phases → Forall apart phases → valid_sort sortDocs → Init io = Some x0 →
  fine_reach murmur n only reqsFirst cap log2 sortDocs nseg [program phases] x0 stale looks s → returned 0 (fPipe s) →
  fShards s !! i = Some sh →
  at_ease sh ∧
  ∃ M, shows (index_of sh) M ∧ clean (index_of sh) M ∧ addCache (index_of sh) = [] ∧ removeCache (index_of sh) = [] ∧
    ∀ id, M !! id = version murmur n (Z.of_nat i) (program phases) id.
Proof.
  intros Hn HG HA Hs HI Hr Hret Hi. split.
  - exact (fine_returned murmur n only reqsFirst cap log2 sortDocs Hn nseg phases HG HA x0 stale looks s sh Hr Hret (elem_of_list_lookup_2 _ _ _ Hi)).
  - exact (fine_flush murmur n only reqsFirst cap log2 sortDocs Hn nseg phases HG HA x0 stale looks io s i sh Hs HI Hr Hret Hi).
Qed.
Print Assumptions C104_flushed_writes_are_visible.
(** No worker panics. *)
Theorem C104_no_worker_panics murmur n only reqsFirst cap log2 sortDocs nseg phases x0 stale looks io s i sh t th :
  1 <= n < 2^32 → Forall good_phase phases → Forall apart phases → valid_sort sortDocs → Init io = Some x0 →
  fine_reach murmur n only reqsFirst cap log2 sortDocs nseg [program phases] x0 stale looks s →
  fShards s !! i = Some sh → (t < 2)%nat → cThreads (fsC sh) !! t = Some th → tPc th ≠ Crash.
Proof.
  intros Hn HG HA Hs HI Hr Hi Ht Hth.
  exact (proj1 (fine_sound murmur n only reqsFirst cap log2 sortDocs Hn nseg phases HG HA x0 stale looks io s Hs HI Hr i sh t th Hi Ht Hth)).
Qed.
Print Assumptions C104_no_worker_panics.

(** ** Executions for the examples *)
(** One shard: processes 0 to 5 as in PropPipe.v; a list of turns, ended as soon as [P]
    holds. *)
Definition fdo1 := fineDo hash0 1 false true cap1 (λ x, x) stableSort.
Fixpoint runTo (P : fine → bool) (ms : list fmove) (s : fine) : fine :=
  match ms with [] => s | m :: r => if P s then s else runTo P r (fine_turn fdo1 m s) end.
Lemma runTo_reach P ms : ∀ s, rtc (fineStep hash0 1 false true cap1 (λ x, x) stableSort) s (runTo P ms s).
Proof.
  induction ms as [|m ms IH]; intros s; cbn [runTo]; [apply rtc_refl|]. destruct (P s); [apply rtc_refl|].
  unfold fine_turn. destruct (fdo1 m s) as [s'|] eqn:E; [|apply IH]. eapply rtc_l; [by exists m|apply IH].
Qed.
Definition rounds (k : nat) (l : list fmove) : list fmove := mjoin (replicate k l).
Definition everybody (looks : nat) : list fmove := (MProc <$> seq 0 6) ++ (MLock 0 <$> seq 0 (2 + looks)).
Definition emptyIx : Indexer := mkIndexer ∅ ∅ [] [] (optsInit (optsL 8)) 0 f_zero ∅.
Lemma emptyIx_ok : Init (optsL 8) = Some emptyIx.
Proof. reflexivity. Qed.
Definition start1 (prog : list ecall) (looks : list (list query)) : fine := fineInit 1 1 [prog] emptyIx (cells 16) (λ _, looks).
Definition reach1 prog looks (s : fine) : Prop :=
  fine_reach hash0 1 false true cap1 (λ x, x) stableSort 1 [prog] emptyIx (cells 16) (λ _, looks) s.
(** The client has [k] calls before it. *)
Definition before_ (k : nat) (s : fine) : bool :=
  match sProcs (fPipe s) with p :: _ => match pActs p with [] => (length (pCalls p) =? k)%nat | _ => false end | _ => false end.
Definition never (_ : fine) : bool := false.
Definition ixOf (s : fine) : option Indexer := match fShards s with sh :: _ => Some (index_of sh) | _ => None end.
Definition rowx1 (s : fine) : list string := match fShards s with sh :: _ => rowx (fsC sh) | _ => [] end.
Definition found1 (s : fine) : list (list string) := match fShards s with sh :: _ => found (fsC sh) | _ => [] end.

Definition sh1 (s : fine) : fshard := hd (mkFShard (shardStart emptyIx [] [] [] []) None None) (fShards s).
Lemma sh1_ok s : (length (fShards s) =? 1)%nat = true → fShards s = [sh1 s].
Proof. unfold sh1. by destruct (fShards s) as [|sh [|]]. Qed.
Definition at_easeb (sh : fshard) : bool :=
  match fsAdding sh, fsRemoving sh with None, None => isIdle 0 (fsC sh) && isIdle 1 (fsC sh) | _, _ => false end.
Lemma at_easeb_ok sh : at_easeb sh = true → at_ease sh.
Proof.
  unfold at_easeb, at_ease. destruct (fsAdding sh), (fsRemoving sh); try done. rewrite andb_true_iff, !isIdle_true. tauto.
Qed.

Lemma phase_ok ph : Forall write_call ph → bool_decide (NoDup (omap call_id ph)) = true → good_phase ph.
Proof. intros H1 H2. split; [done|]. by apply bool_decide_eq_true in H2. Qed.
Ltac writes := repeat (apply Forall_cons; split); try (apply Forall_nil; done); cbn; try (split; [apply (bool_decide_unpack _); by vm_compute|]); done.
Definition idxA2 : ecall := EIndex docA2 (IOther 3) "y" INil true.
(** "a" and "b" are added, then "b" removed, then "a" updated. *)
Definition phasesF : list (list ecall) := [[idxA false; idxB true]; [ERemove "b" true]; [idxA2]].
Lemma phasesF_ok : Forall good_phase phasesF ∧ Forall apart phasesF.
Proof.
  split.
  - repeat (apply Forall_cons; split); [..|apply Forall_nil; done]; (apply phase_ok; [writes|by vm_compute]).
  - repeat (apply Forall_cons; split); [..|apply Forall_nil; done].
    + right. intros c. rewrite !elem_of_cons, elem_of_nil. by intros [->|[->|[]]].
    + left. intros c. rewrite !elem_of_cons, elem_of_nil. by intros [->|[]].
    + right. intros c. rewrite !elem_of_cons, elem_of_nil. by intros [->|[]].
Qed.
(** Searches run meanwhile; at the end the client has returned. *)
Definition looksF : list (list query) := [replicate 40 qx].
Definition endF : fine := runTo never (rounds 150 (everybody 1)) (start1 (program phasesF) looksF).
Example C104_case : Forall good_phase phasesF ∧ Forall apart phasesF ∧ Init (optsL 8) = Some emptyIx ∧
  reach1 (program phasesF) looksF endF ∧ returned 0 (fPipe endF) ∧
  version hash0 1 0 (program phasesF) "a" = Some docA2 ∧ version hash0 1 0 (program phasesF) "b" = None ∧
  length (found1 endF) = 40%nat ∧ ["b"; "a"] ∈ found1 endF ∧ rowx1 endF = [].
Proof.
  destruct phasesF_ok as [H1 H2]. split; [exact H1|]. split; [exact H2|]. split; [exact emptyIx_ok|].
  split; [apply runTo_reach|]. split; [apply returnedb_ok; vm_compute; reflexivity|].
  split; [vm_compute; reflexivity|]. split; [vm_compute; reflexivity|]. split; [vm_compute; reflexivity|]. split; [|vm_compute; reflexivity].
  apply (bool_decide_unpack _). by vm_compute.
Qed.
(** In the middle of an addition *)
Example C104_case_during : ∃ s sh, reach1 (program phasesF) [[qx]] s ∧ fShards s !! 0%nat = Some sh ∧ fsAdding sh = Some 2%nat ∧
  fsRemoving sh = None ∧ kept_apart [program phasesF].
Proof.
  set (s := runTo (λ s, match fsAdding (sh1 s) with Some _ => true | _ => false end) (rounds 10 (everybody 1)) (start1 (program phasesF) [[qx]])).
  assert (E : fShards s = [sh1 s]) by (apply sh1_ok; vm_compute; reflexivity).
  exists s, (sh1 s). split; [apply runTo_reach|]. split; [rewrite E; exact eq_refl|]. split; [vm_compute; reflexivity|]. split; [vm_compute; reflexivity|].
  right. exists phasesF. exact (conj eq_refl phasesF_ok).
Qed.

(** ** Without the separation it fails *)
(** One phase removes "b" and updates "a", both forced; Flush has returned, all is at rest,
    and "b" is still in the index. *)
Definition phasesM : list (list ecall) := [[idxA false; idxB true]; [ERemove "b" true; idxA2]].
Lemma phasesM_ok : Forall good_phase phasesM.
Proof. repeat (apply Forall_cons; split); [..|apply Forall_nil; done]; (apply phase_ok; [writes|by vm_compute]). Qed.
(** The first phase and its Flush; then both requests are sent and both workers start. *)
Definition bothM : fine :=
  runTo never (replicate 9 (MProc 0) ++ replicate 3 (MProc 1) ++ replicate 2 (MProc 3) ++ replicate 2 (MProc 2))
    (runTo (before_ 3) (rounds 60 (everybody 0)) (start1 (program phasesM) [])).
Lemma bothM_reach : reach1 (program phasesM) [] bothM.
Proof. eapply rtc_transitive; apply runTo_reach. Qed.
Definition lostM : fine :=
  runTo never (replicate 5 (MLock 0 1) ++ replicate 7 (MLock 0 0) ++ replicate 2 (MLock 0 1) ++ replicate 8 (MLock 0 0) ++ rounds 60 (everybody 0)) bothM.
Theorem C104_mixed_phase_refuted : ∃ phases s sh,
  Forall good_phase phases ∧ reach1 (program phases) [] s ∧ returned 0 (fPipe s) ∧ quiescent (fPipe s) ∧
  fShards s = [sh] ∧ at_ease sh ∧
  version hash0 1 0 (program phases) "b" = None ∧ rowx (fsC sh) = ["b"] ∧ ghost (fsC sh) "b".
Proof.
  exists phasesM, lostM, (sh1 lostM). split; [apply phasesM_ok|].
  split; [eapply rtc_transitive; [apply bothM_reach|apply runTo_reach]|].
  split; [apply returnedb_ok; vm_compute; reflexivity|]. split; [apply quiescentb_ok; vm_compute; reflexivity|].
  split; [apply sh1_ok; vm_compute; reflexivity|]. split; [apply at_easeb_ok; vm_compute; reflexivity|].
  split; [vm_compute; reflexivity|]. split; [vm_compute; reflexivity|].
  apply ghostb_ok. vm_compute; reflexivity.
Qed.
Print Assumptions C104_mixed_phase_refuted.

(** * C105 *)
(** If every goroutine keeps getting turns and nobody panics, then all calls return, the
    pipeline comes to rest, and all searches have been answered. *)
Theorem C105_everything_returns murmur n only reqsFirst cap log2 sortDocs nseg progs x0 stale looks s ms :
  1 <= n < 2^32 → (∀ ch, (1 <= cap ch)%nat) → (1 <= nseg)%nat → kept_apart progs →
  zlen (addCache x0) <= DocCacheSize (initOptions x0) →
  fine_reach murmur n only reqsFirst cap log2 sortDocs nseg progs x0 stale looks s →
  fair_moves (length progs + nseg + 4 * Z.to_nat n) n looks ms →
  (∀ j, unharmed (fine_after (fineDo murmur n only reqsFirst cap log2 sortDocs) ms s j)) →
  ∃ j, quiescent (fPipe (fine_after (fineDo murmur n only reqsFirst cap log2 sortDocs) ms s j)) ∧
    ∀ sh, sh ∈ fShards (fine_after (fineDo murmur n only reqsFirst cap log2 sortDocs) ms s j) → at_ease sh ∧ finished (fsC sh).
Proof.
  intros Hn Hcap Hseg Hap Hx0 Hr Hf Hu.
  exact (fine_live murmur n only reqsFirst cap log2 sortDocs Hn nseg progs Hap x0 stale looks Hcap Hseg Hx0 s Hr ms Hf Hu).
Qed.
Print Assumptions C105_everything_returns.
(** For phases kept apart the workers do not panic anyway. *)
Theorem C105_phases_return murmur n only reqsFirst cap log2 sortDocs nseg phases x0 stale looks io s ms :
  1 <= n < 2^32 → (∀ ch, (1 <= cap ch)%nat) → (1 <= nseg)%nat → Forall good_phase phases → Forall apart phases →
  valid_sort sortDocs → Init io = Some x0 →
  fine_reach murmur n only reqsFirst cap log2 sortDocs nseg [program phases] x0 stale looks s →
  fair_moves (1 + nseg + 4 * Z.to_nat n) n looks ms →
  (∀ j, ¬ search_crashed (fine_after (fineDo murmur n only reqsFirst cap log2 sortDocs) ms s j)) →
  ∃ j, quiescent (fPipe (fine_after (fineDo murmur n only reqsFirst cap log2 sortDocs) ms s j)) ∧
    ∀ sh, sh ∈ fShards (fine_after (fineDo murmur n only reqsFirst cap log2 sortDocs) ms s j) → at_ease sh ∧ finished (fsC sh).
Proof.
  intros Hn Hcap Hseg HG HA Hs HI Hr Hf Hu.
  apply (fine_live murmur n only reqsFirst cap log2 sortDocs Hn nseg [program phases] (phases_apart phases HG HA) x0 stale looks Hcap Hseg (Init_cache io x0 HI) s Hr ms Hf).
  intros j. apply (phases_unharmed murmur n only reqsFirst cap log2 sortDocs nseg phases x0 stale looks io); try done.
  by apply ST_reach.
Qed.
Print Assumptions C105_phases_return.
(** Nothing moves any more then. *)
Theorem C105_rest_is_final murmur n only reqsFirst cap log2 sortDocs s m :
  quiescent (fPipe s) → (∀ sh, sh ∈ fShards s → finished (fsC sh)) → fineDo murmur n only reqsFirst cap log2 sortDocs m s = None.
Proof. exact (fine_rest murmur n only reqsFirst cap log2 sortDocs s m). Qed.
Print Assumptions C105_rest_is_final.

(** The two opposite lock orders meet: Flush never returns, whatever happens. *)
Theorem C105_lock_cycle_blocks_flush murmur n only reqsFirst cap log2 sortDocs nseg phases x0 stale looks i k o s s' sh :
  1 <= n < 2^32 → Forall good_phase phases →
  fine_reach murmur n only reqsFirst cap log2 sortDocs nseg [program phases] x0 stale looks s →
  fShards s !! i = Some sh → lock_cycle (fsC sh) → waiter o sh = Some k → calling (fPipe s) k (Z.of_nat i) o →
  rtc (fineStep murmur n only reqsFirst cap log2 sortDocs) s s' → ¬ returned 0 (fPipe s').
Proof.
  intros Hn HG Hr Hi Hl Hw Hc.
  exact (dead_forever murmur n only reqsFirst cap log2 sortDocs nseg phases x0 stale looks i k o s s' Hn HG Hr (ex_intro _ sh (conj Hi (conj Hl (conj Hw Hc))))).
Qed.
Print Assumptions C105_lock_cycle_blocks_flush.
Definition cycleM : fine := runTo never (replicate 4 (MLock 0 0) ++ [MLock 0 1]) bothM.
Theorem C105_mixed_phase_refuted : ∃ phases s,
  Forall good_phase phases ∧ reach1 (program phases) [] s ∧
  ∀ s', rtc (fineStep hash0 1 false true cap1 (λ x, x) stableSort) s s' → ¬ returned 0 (fPipe s').
Proof.
  exists phasesM, cycleM. split; [apply phasesM_ok|].
  assert (Hr : reach1 (program phasesM) [] cycleM) by (eapply rtc_transitive; [apply bothM_reach|apply runTo_reach]).
  split; [exact Hr|]. intros s'.
  assert (E : fShards cycleM = [sh1 cycleM]) by (apply sh1_ok; vm_compute; reflexivity).
  apply (C105_lock_cycle_blocks_flush hash0 1 false true cap1 (λ x, x) stableSort 1 phasesM emptyIx (cells 16) (λ _, []) 0 2 (OpAdd (Some docA2) true) cycleM s' (sh1 cycleM));
    [lia|apply phasesM_ok|exact Hr|rewrite E; exact eq_refl| |vm_compute; reflexivity|].
  - apply cycleb_ok. vm_compute; reflexivity.
  - eexists _, _. split; vm_compute; reflexivity.
Qed.
Print Assumptions C105_mixed_phase_refuted.

(** Everybody in turn, two searches meanwhile: at rest after 1400 turns, nobody panics. *)
Definition robinF (j : nat) : fmove := nth (j mod 9) (everybody 1) (MProc 0).
Lemma robinF_fair : fair_moves (1 + 1 + 4 * Z.to_nat 1) 1 (λ _, [[qx; qx]]) robinF.
Proof.
  assert (H : ∀ x, (x < 9)%nat → ∀ j, ∃ j', (j <= j')%nat ∧ robinF j' = nth x (everybody 1) (MProc 0)).
  { intros x Hx j. exists (x + j * 9)%nat. split; [lia|]. unfold robinF. rewrite Nat.mod_add by lia. by rewrite Nat.mod_small. }
  split.
  - intros k Hk j. change (Z.to_nat 1) with 1%nat in Hk. destruct (H k) with (j := j) as (j' & ? & E); [lia|]. exists j'. split; [done|]. rewrite E.
    do 6 (destruct k as [|k]; [done|]). lia.
  - intros i t Hi Ht j. change (Z.to_nat 1) with 1%nat in Hi. assert (i = 0%nat) as -> by lia. cbn in Ht.
    destruct (H (6 + t)%nat) with (j := j) as (j' & ? & E); [lia|]. exists j'. split; [done|]. rewrite E.
    do 3 (destruct t as [|t]; [done|]). lia.
Qed.
Notation runF := (fine_after fdo1 robinF (start1 (program phasesF) [[qx; qx]])).
Fixpoint statesF (k : nat) (j : nat) (s : fine) : list fine :=
  match k with O => [s] | S k' => s :: statesF k' (S j) (fine_turn fdo1 (robinF j) s) end.
Definition unharmedb (s : fine) : bool := forallb (λ sh, forallb (λ th, match tPc th with Crash => false | _ => true end) (cThreads (fsC sh))) (fShards s).
Lemma unharmedb_ok s : unharmedb s = true → unharmed s.
Proof.
  unfold unharmedb. rewrite forallb_forall. intros H sh Hsh (th & Hth & Hc). apply elem_of_list_In in Hsh. specialize (H sh Hsh).
  rewrite forallb_forall in H. apply elem_of_list_In in Hth. specialize (H th Hth). by rewrite Hc in H.
Qed.
Lemma statesF_ok k : ∀ j, forallb unharmedb (statesF k j (runF j)) = true → ∀ j', (j <= j' <= j + k)%nat → unharmed (runF j').
Proof.
  induction k as [|k IH]; intros j H j' Hj; cbn [statesF forallb] in H; apply andb_true_iff in H as [H1 H2].
  - assert (j' = j) as -> by lia. by apply unharmedb_ok.
  - destruct (decide (j' = j)) as [->|]; [by apply unharmedb_ok|]. apply (IH (S j)); [exact H2|lia].
Qed.
Definition finishedb1 (s : fine) : bool := forallb (λ sh, finishedb (fsC sh)) (fShards s).
Lemma finishedb1_ok s : finishedb1 s = true → ∀ sh, sh ∈ fShards s → finished (fsC sh).
Proof. unfold finishedb1. rewrite forallb_forall. intros Hb sh Hsh. apply finishedb_ok, Hb. by apply elem_of_list_In. Qed.
Lemma unrest s : quiescentb s = false → ¬ quiescent s.
Proof.
  intros Hb [Hn Hf]. revert Hb. unfold quiescentb. rewrite Hn.
  intros Hb. apply not_true_iff_false in Hb. apply Hb, forallb_forall. intros p Hp. apply elem_of_list_In in Hp.
  rewrite Forall_forall in Hf. destruct (Hf p Hp) as [-> ->]. done.
Qed.
Lemma rest_unharmed J : quiescentb (fPipe (runF J)) = true → finishedb1 (runF J) = true →
  forallb unharmedb (statesF J 0 (runF 0)) = true → ∀ j, unharmed (runF j).
Proof.
  intros Hq Hf Hu j. destruct (decide (j <= J)%nat) as [Hj|Hj]; [apply (statesF_ok J 0); [done|lia]|].
  replace j with (J + (j - J))%nat by lia. rewrite (after_rest fdo1 robinF _ J).
  - apply (statesF_ok J 0); [done|lia].
  - intros m. apply fine_rest; [by apply quiescentb_ok|by apply finishedb1_ok].
Qed.
Example C105_case : fair_moves (1 + 1 + 4 * Z.to_nat 1) 1 (λ _, [[qx; qx]]) robinF ∧ Forall good_phase phasesF ∧ Forall apart phasesF ∧
  (∀ j, unharmed (runF j)) ∧ returned 0 (fPipe (runF 1400)) ∧ quiescent (fPipe (runF 1400)) ∧ ¬ quiescent (fPipe (runF 100)).
Proof.
  destruct phasesF_ok as [H1 H2]. split; [exact robinF_fair|]. split; [exact H1|]. split; [exact H2|].
  split; [apply (rest_unharmed 1400); vm_compute; reflexivity|].
  split; [apply returnedb_ok; vm_compute; reflexivity|]. split; [apply quiescentb_ok; vm_compute; reflexivity|].
  apply unrest. vm_compute. reflexivity.
Qed.
