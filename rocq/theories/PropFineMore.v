(** C79, C97 and C99 with the locks of the indexers in view. *)
From Verif Require Import ModelLookup ModelPipe ModelFlight ModelStore SpecIndexer SpecSearch SpecSegment SpecLogic SpecRank SpecRoute SpecPipe SpecEngine SpecFlight SpecStore SpecEnd SpecFits SpecUpdate SpecLife SpecClose SpecWhole SpecSession SpecRevise
  SpecFine SpecFineScores ProofIxThms ProofSortBy ProofFlushThms ProofEnd ProofLife ProofRevise ProofReserved ProofFineRest ProofFineScores ProofFineMore
  ExampleTools PropPipe PropSegment PropEngine PropStore PropEnd PropLife PropLocks PropFine PropFineDuring PropFineGrowing PropFineRest PropFineFlights.
From Verif Require Import ModelEngine SpecFineScores.

(** Documents under the reserved id change no answer, *)
Theorem C99_search_ignores_reserved_with_locks murmur n only reqsFirst cap wlog2 sortDocs sortBy o x0 nseg progs stale looks s shards log2 req order :
  1 <= n < 2^32 → kept_apart progs → valid_sort sortDocs → valid_sortBy sortBy → Init o = Some x0 →
  fine_reach murmur n only reqsFirst cap wlog2 sortDocs nseg progs x0 stale looks s → quiescent (fPipe s) → once_each (ordinary (mjoin progs)) →
  shards_now only s shards → Forall nothing_waits shards →
  open_request o req → scores_numbers log2 req shards → all_arrive (length shards) order →
  ∃ full out, Search log2 sortBy req shards order = Some (mkResp (rqTokens req) false (zlen full) (Some out)) ∧
    answers_fitting only (ordinary (mjoin progs)) req full out.
Proof.
  intros Hn Hap Hv Hvb HI Hr Hq Ho Hnow.
  exact (reserved_search murmur n only reqsFirst cap Hn sortDocs sortBy o x0 nseg progs (fPipe s) shards log2 req order Hv Hvb HI
    (quiet_pipe murmur n only reqsFirst cap Hn wlog2 sortDocs nseg progs Hap x0 stale looks s Hr) Hq Ho
    (quiet_shards murmur n only reqsFirst cap Hn wlog2 sortDocs nseg progs Hap x0 stale looks s Hr Hq shards Hnow)).
Qed.
Print Assumptions C99_search_ignores_reserved_with_locks.
(** nor those of searches at the same time. *)
Theorem C99_searches_ignore_reserved_with_locks murmur n only reqsFirst cap wlog2 sortDocs sortBy o x0 nseg progs stale looks s shards log2 nn ccap
    clients tl tr ls fs a req t0 :
  1 <= n < 2^32 → kept_apart progs → valid_sort sortDocs → valid_sortBy sortBy → Init o = Some x0 →
  fine_reach murmur n only reqsFirst cap wlog2 sortDocs nseg progs x0 stale looks s → quiescent (fPipe s) → once_each (ordinary (mjoin progs)) →
  shards_now only s shards → Forall nothing_waits shards →
  frun log2 sortBy nn ccap ls (fInit nn clients tl tr shards) = Some fs → Forall read_only ls → length shards = nn →
  a ∈ fAnswers fs → fReqs fs !! faSearch a = Some (req, t0) →
  open_request o req → scores_numbers log2 req shards →
  ∃ full out, faResp a = mkResp (rqTokens req) false (zlen full) (Some out) ∧
    answers_fitting only (ordinary (mjoin progs)) req full out.
Proof.
  intros Hn Hap Hv Hvb HI Hr Hq Ho Hnow.
  exact (reserved_flight murmur n only reqsFirst cap Hn sortDocs sortBy o x0 nseg progs (fPipe s) shards log2 nn ccap clients tl tr ls fs a req t0 Hv Hvb HI
    (quiet_pipe murmur n only reqsFirst cap Hn wlog2 sortDocs nseg progs Hap x0 stale looks s Hr) Hq Ho
    (quiet_shards murmur n only reqsFirst cap Hn wlog2 sortDocs nseg progs Hap x0 stale looks s Hr Hq shards Hnow)).
Qed.
Print Assumptions C99_searches_ignore_reserved_with_locks.
(** One client calls Flush between updates, with additions and removals kept apart: after the last Flush has returned, a search finds current versions, *)
Theorem C97_search_sees_the_revisions_with_locks murmur n only reqsFirst cap wlog2 sortDocs sortBy o x0 nseg phases stale looks s shards log2 req order :
  1 <= n < 2^32 → valid_sort sortDocs → valid_sortBy sortBy → Init o = Some x0 →
  fine_reach murmur n only reqsFirst cap wlog2 sortDocs nseg [program phases] x0 stale looks s → returned 0 (fPipe s) → Forall good_phase phases → Forall apart phases →
  shards_now only s shards →
  open_request o req → scores_numbers log2 req shards → all_arrive (length shards) order →
  ∃ full out, Search log2 sortBy req shards order = Some (mkResp (rqTokens req) false (zlen full) (Some out)) ∧
    answers_revised n only (called murmur n (program phases)) req (quiescent (fPipe s)) full out.
Proof.
  intros Hn Hv Hvb HI Hr Hret HG HA Hnow.
  destruct (fine_returned_shards murmur n only reqsFirst cap Hn wlog2 sortDocs nseg phases x0 stale looks s shards HG HA Hr Hret Hnow) as (Hsh & Hp).
  exact (revised_search murmur n only Hn reqsFirst cap sortDocs sortBy o x0 nseg phases (fPipe s) shards log2 req order Hv Hvb HI Hp Hret HG Hsh).
Qed.
Print Assumptions C97_search_sees_the_revisions_with_locks.
(** and so do searches at the same time. *)
Theorem C97_searches_see_the_revisions_with_locks murmur n only reqsFirst cap wlog2 sortDocs sortBy o x0 nseg phases stale looks s shards log2 nn ccap
    clients tl tr ls fs a req t0 :
  1 <= n < 2^32 → valid_sort sortDocs → valid_sortBy sortBy → Init o = Some x0 →
  fine_reach murmur n only reqsFirst cap wlog2 sortDocs nseg [program phases] x0 stale looks s → returned 0 (fPipe s) → Forall good_phase phases → Forall apart phases →
  shards_now only s shards →
  frun log2 sortBy nn ccap ls (fInit nn clients tl tr shards) = Some fs → Forall read_only ls → length shards = nn →
  a ∈ fAnswers fs → fReqs fs !! faSearch a = Some (req, t0) →
  open_request o req → scores_numbers log2 req shards →
  ∃ full out, faResp a = mkResp (rqTokens req) false (zlen full) (Some out) ∧
    answers_revised n only (called murmur n (program phases)) req (quiescent (fPipe s)) full out.
Proof.
  intros Hn Hv Hvb HI Hr Hret HG HA Hnow.
  destruct (fine_returned_shards murmur n only reqsFirst cap Hn wlog2 sortDocs nseg phases x0 stale looks s shards HG HA Hr Hret Hnow) as (Hsh & Hp).
  exact (revised_flight murmur n only Hn reqsFirst cap sortDocs sortBy o x0 nseg phases (fPipe s) shards log2 nn ccap clients tl tr ls fs a req t0 Hv Hvb HI Hp Hret HG Hsh).
Qed.
Print Assumptions C97_searches_see_the_revisions_with_locks.
(** After a restart a search finds the stored documents; that nothing removes documents is shown, not assumed. *)
Theorem C79_search_sees_the_stored_documents_with_locks murmur n only reqsFirst cap iter decode X stop o wlog2 sortDocs sortBy io x0 nseg nS
    dbs progs stale looks s shards log2 req order :
  1 <= n < 2^32 → valid_iter iter → valid_range X → valid_sort sortDocs → valid_sortBy sortBy → Init io = Some x0 →
  1 <= nS < 2^32 → placed murmur nS dbs → no_zero nS dbs →
  recoverProgs iter decode X stop o nS dbs = Some progs →
  fine_reach murmur n only reqsFirst cap wlog2 sortDocs nseg (progs ++ [[EFlush]]) x0 stale looks s → quiescent (fPipe s) →
  shards_now only s shards → Forall nothing_waits shards →
  plain_request io req → scores_numbers log2 req shards → all_arrive (length shards) order →
  ∃ full out, Search log2 sortBy req shards order = Some (mkResp (rqTokens req) false (zlen full) (Some out)) ∧
    answers_docs only X stop o (stored murmur nS decode dbs) req full out.
Proof.
  intros Hn Hit HX Hv Hvb HI HnS Hpl Hz Hrec Hr Hq Hnow. pose proof (recover_apart _ _ _ _ _ _ _ _ Hrec) as Hap.
  exact (life_search murmur n only reqsFirst cap Hn iter Hit decode X stop o HX sortDocs sortBy io x0 nseg nS dbs progs (fPipe s) shards log2 req order Hv Hvb HI HnS Hpl Hz Hrec
    (quiet_pipe murmur n only reqsFirst cap Hn wlog2 sortDocs nseg (progs ++ [[EFlush]]) Hap x0 stale looks s Hr) Hq
    (quiet_shards murmur n only reqsFirst cap Hn wlog2 sortDocs nseg (progs ++ [[EFlush]]) Hap x0 stale looks s Hr Hq shards Hnow)).
Qed.
Print Assumptions C79_search_sees_the_stored_documents_with_locks.

Definition shownIn (req : SearchReq) (s : fine) : option (option (list (string * string)) * Z) :=
  match Search (λ x, x) insSortBy req [shardOf s] [Some 0%nat] with
  | Some r => Some (fmap (M:=list) (λ h, (sdDocId h, sdContent h)) <$> rsDocs r, rsNumDocs r)
  | None => None
  end.
(** C97: the case of C104, where "a" and "b" are added, "b" removed and "a" updated. *)
Lemma endF_computed : returnedb (fPipe endF) = true ∧ settleds endF = true ∧
  shownIn (lifeReq "x") endF = Some (Some [], 0) ∧ shownIn (lifeReq "y") endF = Some (Some [("a", "y")], 1).
Proof. vm_compute. repeat split; reflexivity. Qed.
Lemma lifeReq_open o tok : open_request o (lifeReq tok).
Proof. split; [by repeat split|]. split; [cbn; lia|]. split; [by repeat split|]. left. split; [unfold with_logic, is_logic; cbn; naive_solver|]. split; [intros H; discriminate H|intros _ H; discriminate H]. Qed.
Example C97_case_with_locks : Forall good_phase phasesF ∧ Forall apart phasesF ∧ Init (optsL 8) = Some emptyIx ∧
  reach1 (program phasesF) looksF endF ∧ returned 0 (fPipe endF) ∧ shards_now false endF [shardOf endF] ∧ open_request (optsL 8) (lifeReq "y") ∧
  shownIn (lifeReq "x") endF = Some (Some [], 0) ∧ shownIn (lifeReq "y") endF = Some (Some [("a", "y")], 1).
Proof.
  destruct endF_computed as (Hret & Hs & H1 & H2). destruct phasesF_ok as [HG HA].
  split; [exact HG|]. split; [exact HA|]. split; [exact emptyIx_ok|]. split; [exact (runTo_reach _ _ _)|]. split; [exact (returnedb_ok _ Hret)|].
  split; [exact (now_settled _ Hs)|]. split; [exact (lifeReq_open _ _)|]. split; [exact H1|exact H2].
Qed.

(** C99: two clients; one of them also indexes a document under "0". *)
Definition doc0 : DocIndex := mkDoc "0" (TokenLen docA) (Keywords docA).
Definition progsZ : list (list ecall) := [[idxB true]; [EIndex doc0 (IOther 3) "z" INil true; idxA true]].
Definition startZ : fine := fineInit 1 1 progsZ ixF (cells 16) (λ _, []).
Definition endZ : fine := runTo never turnsR startZ.
Lemma endZ_computed : quiescentb (fPipe endZ) = true ∧ settleds endZ = true ∧
  addCache (shIx (shardOf endZ)) = [] ∧ removeCache (shIx (shardOf endZ)) = [] ∧
  shownIn (lifeReq "x") endZ = Some (Some [("b", "y"); ("a", "x")], 2).
Proof. vm_compute. repeat split; reflexivity. Qed.
Lemma progsZ_ok : kept_apart progsZ ∧ once_each (ordinary (mjoin progsZ)).
Proof.
  split.
  - left. intros cs c Hcs Hc. unfold progsZ in Hcs. rewrite !elem_of_cons in Hcs.
    destruct Hcs as [->|[->|H]]; [| |by apply elem_of_nil in H]; rewrite !elem_of_cons in Hc.
    + destruct Hc as [->|H]; [reflexivity|by apply elem_of_nil in H].
    + destruct Hc as [->|[->|H]]; [reflexivity|reflexivity|by apply elem_of_nil in H].
  - change (ordinary (mjoin progsZ)) with (mjoin progsR). exact (proj1 onceR).
Qed.
Example C99_case_with_locks : kept_apart progsZ ∧ once_each (ordinary (mjoin progsZ)) ∧ ¬ once_each (mjoin progsZ) ∧ Init (optsF 2) = Some ixF ∧
  fine_reach hash0 1 false true PropPipe.cap1 (λ x, x) stableSort 1 progsZ ixF (cells 16) (λ _, []) endZ ∧ quiescent (fPipe endZ) ∧
  shards_now false endZ [shardOf endZ] ∧ Forall nothing_waits [shardOf endZ] ∧ open_request (optsF 2) (lifeReq "x") ∧
  shownIn (lifeReq "x") endZ = Some (Some [("b", "y"); ("a", "x")], 2).
Proof.
  destruct endZ_computed as (Hq & Hs & Ha & Hb & Hr). destruct progsZ_ok as [Hap Ho].
  split; [exact Hap|]. split; [exact Ho|].
  split. { intros [H _]. apply Forall_cons in H as [_ H]. apply Forall_cons in H as [[_ H] _]. apply H. reflexivity. }
  split; [reflexivity|]. split; [exact (runTo_reach _ _ _)|]. split; [exact (quiescentb_ok _ Hq)|]. split; [exact (now_settled _ Hs)|].
  split. { apply Forall_cons. split; [split; [exact Ha|exact Hb]|]. apply Forall_nil. exact I. }
  split; [exact (lifeReq_open _ _)|exact Hr].
Qed.

(** C79: a file with two documents is read, then Flush is called. *)
Definition dbsS (_ : Z) : kv := {["a" := "cat"; "bb" := "cat dog"]}.
Definition recsS : list (list ecall) := default [] (recoverProgs map_to_list decT exX ∅ noGse 1 dbsS).
Definition startS : fine := fineInit 1 1 (recsS ++ [[EFlush]]) ixF (cells 16) (λ _, []).
Definition loadedS : fine := runTo never (PropFine.rounds 60 (MProc <$> [0; 2; 3; 4; 5; 6]%nat) ++ turnsR) startS.
Lemma loadedS_computed : quiescentb (fPipe loadedS) = true ∧ settleds loadedS = true ∧
  addCache (shIx (shardOf loadedS)) = [] ∧ removeCache (shIx (shardOf loadedS)) = [] ∧
  shownIn (lifeReq "cat") loadedS = Some (Some [("bb", "cat dog"); ("a", "cat")], 2).
Proof. vm_compute. repeat split; reflexivity. Qed.
Lemma lifeReq_plain : plain_request (optsF 2) (lifeReq "cat").
Proof. by repeat split. Qed.
Lemma dbsS_ok : placed hash0 1 dbsS ∧ no_zero 1 dbsS ∧ recoverProgs map_to_list decT exX ∅ noGse 1 dbsS = Some recsS ∧ length (mjoin recsS) = 2%nat.
Proof.
  split. { intros j id Hj _. assert (j = 0) as -> by lia. reflexivity. }
  split. { intros j _. reflexivity. }
  split; vm_compute; reflexivity.
Qed.
Example C79_case_with_locks : placed hash0 1 dbsS ∧ no_zero 1 dbsS ∧ recoverProgs map_to_list decT exX ∅ noGse 1 dbsS = Some recsS ∧
  Init (optsF 2) = Some ixF ∧
  fine_reach hash0 1 false true PropPipe.cap1 (λ x, x) stableSort 1 (recsS ++ [[EFlush]]) ixF (cells 16) (λ _, []) loadedS ∧
  quiescent (fPipe loadedS) ∧ shards_now false loadedS [shardOf loadedS] ∧ Forall nothing_waits [shardOf loadedS] ∧
  plain_request (optsF 2) (lifeReq "cat") ∧ shownIn (lifeReq "cat") loadedS = Some (Some [("bb", "cat dog"); ("a", "cat")], 2).
Proof.
  destruct loadedS_computed as (Hq & Hs & Ha & Hb & Hr). destruct dbsS_ok as (H1 & H2 & H3 & _).
  split; [exact H1|]. split; [exact H2|]. split; [exact H3|]. split; [reflexivity|]. split; [exact (runTo_reach _ _ _)|].
  split; [exact (quiescentb_ok _ Hq)|]. split; [exact (now_settled _ Hs)|].
  split. { apply Forall_cons. split; [split; [exact Ha|exact Hb]|]. apply Forall_nil. exact I. }
  split; [exact lifeReq_plain|exact Hr].
Qed.
