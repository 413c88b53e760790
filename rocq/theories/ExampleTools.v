(** Helpers for the concrete examples beside the theorems: the states are checked
    by boolean tests, so that they are never written out. *)
From Verif Require Import ModelLookup SpecIndexer ProofIxThms.

Definition st (o : IndexerOpts) (ops : list op) : option Indexer := s0 ← Init o; run stableSort ops s0.

(** [P] holds in the state reached by [ops]. *)
Definition check (o : IndexerOpts) (ops : list op) (P : Indexer → bool) : bool :=
  match st o ops with Some s => P s | None => false end.

Lemma check_st o ops P : check o ops P = true → ∃ s, st o ops = Some s ∧ P s = true.
Proof. unfold check. destruct (st o ops) as [s|]; [eauto|done]. Qed.

Lemma st_reach o ops s : Forall good_op ops → st o ops = Some s → reach stableSort o ops s.
Proof.
  intros Hg. unfold st. destruct (Init o) as [s0|] eqn:E; [|done]. rewrite bind_Some_eq. intros Hr.
  split; [apply stableSort_valid|]. split; [done|]. by exists s0.
Qed.

Lemma check_reach o ops P : Forall good_op ops → check o ops P = true →
  ∃ s, reach stableSort o ops s ∧ P s = true.
Proof. intros Hg (s & Hs & HP)%check_st. exists s. split; [by apply st_reach|done]. Qed.

Lemma Init_Some o : 0 <= DocCacheSize o → is_Some (Init o).
Proof.
  intros H. unfold Init, optsInit. cbn [DocCacheSize].
  destruct (Z.eqb_spec (DocCacheSize o) 0); [by eexists|].
  destruct (Z.ltb_spec (DocCacheSize o) 0); [lia|by eexists].
Qed.

Global Instance waits_dec s id : Decision (waits s id).
Proof. unfold waits. apply _. Defined.

Fixpoint no_readdb (sortDocs : list DocIndex → list DocIndex) (ops : list op) (s : Indexer) : bool :=
  match ops with
  | [] => true
  | o :: ops' =>
    (match o with OpAdd (Some d) _ => bool_decide (¬ waits s (DocId d)) | _ => true end) &&
    match step sortDocs s o with Some s' => no_readdb sortDocs ops' s' | None => true end
  end.
Lemma no_readdb_ok sortDocs ops : ∀ s, no_readdb sortDocs ops s = true → no_readd sortDocs ops s.
Proof.
  induction ops as [|o ops IH]; intros s H; [done|]. cbn [no_readdb no_readd] in *.
  apply andb_true_iff in H as [H1 H2]. split.
  - destruct o as [[d|] f|id f]; [|done|done]. by apply bool_decide_eq_true in H1.
  - intros s' Hs. rewrite Hs in H2. auto.
Qed.

Fixpoint no_conflictb (sortDocs : list DocIndex → list DocIndex) (ops : list op) (s : Indexer) : bool :=
  match ops with
  | [] => true
  | o :: ops' =>
    (match o with
     | OpAdd (Some d) _ => bool_decide (¬ waits s (DocId d))
     | OpAdd None _ => true
     | OpRemove id _ => bool_decide (¬ waits s id ∧ id ≠ "0")
     end) &&
    match step sortDocs s o with Some s' => no_conflictb sortDocs ops' s' | None => true end
  end.
Lemma no_conflictb_ok sortDocs ops : ∀ s, no_conflictb sortDocs ops s = true → no_conflict sortDocs ops s.
Proof.
  induction ops as [|o ops IH]; intros s H; [done|]. cbn [no_conflictb no_conflict] in *.
  apply andb_true_iff in H as [H1 H2]. split.
  - destruct o as [[d|] f|id f]; [|done|]; by apply bool_decide_eq_true in H1.
  - intros s' Hs. rewrite Hs in H2. auto.
Qed.

Definition initCheck (o : IndexerOpts) (P : Indexer → bool) : bool :=
  match Init o with Some s => P s | None => false end.
Lemma initCheck_ok o P : initCheck o P = true → ∃ s0, Init o = Some s0 ∧ P s0 = true.
Proof. unfold initCheck. destruct (Init o) as [s|]; [eauto|done]. Qed.

Definition good_opb (o : op) : bool :=
  match o with OpAdd (Some d) _ => bool_decide (NoDup (Text <$> Keywords d)) | _ => true end.
Lemma good_opsb ops : forallb good_opb ops = true → Forall good_op ops.
Proof.
  rewrite Forall_forall, forallb_forall. intros H o Ho. apply elem_of_list_In in Ho.
  specialize (H o Ho). destruct o as [[d|] f|id f]; [|done|done]. by apply bool_decide_eq_true in H.
Qed.

(** Example data. *)
Definition kw (t : string) (starts : list Z) : KeywordIndex := mkKw t (f32_of_Z (zlen starts)) starts.
Definition docA : DocIndex := mkDoc "a" (f32_of_Z 3) [kw "x" [0; 4]; kw "y" [2]].
Definition docA2 : DocIndex := mkDoc "a" (f32_of_Z 2) [kw "y" [0]; kw "z" [2]].
Definition docB : DocIndex := mkDoc "b" (f32_of_Z 2) [kw "x" [0]; kw "z" [2]].
Definition docC : DocIndex := mkDoc "c" (f32_of_Z 1) [kw "x" [0]].
Definition optsL (n : Z) : IndexerOpts := mkOpts LocsIndex n (Some (mkBM25 (f32_of_Z 2) (f32_of_Z 1))).
Definition optsF (n : Z) : IndexerOpts := mkOpts FrequenciesIndex n (Some (mkBM25 (f32_of_Z 2) (f32_of_Z 1))).

(** A history with automatic flushes, an update, a flushed removal and one that is
    still pending. *)
Definition hist : list op :=
  [OpAdd (Some docA) false; OpAdd (Some docB) false; OpAdd (Some docC) true;
   OpAdd (Some docA2) true; OpRemove "b" false].
Lemma hist_good : Forall good_op hist.
Proof. by apply good_opsb. Qed.

(** The older version wins: a(v1), a(v2), then an update of a live document. *)
Lemma last_wins_refuted :
  ∃ ops s, reach stableSort (optsL 3) ops s ∧
    ops = [OpAdd (Some docC) true; OpAdd (Some docA) false; OpAdd (Some docA2) false; OpAdd (Some docC) true] ∧
    addCache s = [] ∧ HasDoc s "a" = true ∧ in_row s "x" "a" ∧ ¬ in_row s "z" "a" ∧
    "x" ∉ Text <$> Keywords docA2 ∧ "z" ∈ Text <$> Keywords docA2.
Proof.
  set (ops := [OpAdd (Some docC) true; OpAdd (Some docA) false; OpAdd (Some docA2) false; OpAdd (Some docC) true]).
  destruct (check_reach (optsL 3) ops (λ s, match addCache s with [] => true | _ => false end && HasDoc s "a" &&
     bool_decide ("a" ∈ default [] (docIds <$> table s !! "x")) && negb (bool_decide ("a" ∈ default [] (docIds <$> table s !! "z")))))
    as (s & Hr & H); [by apply good_opsb|by vm_compute|].
  apply andb_true_iff in H as [H H4]. apply andb_true_iff in H as [H H3]. apply andb_true_iff in H as [H1 H2].
  exists ops, s. split; [done|]. split; [done|]. split; [by destruct (addCache s)|]. split; [done|].
  apply bool_decide_eq_true in H3. apply negb_true_iff, bool_decide_eq_false in H4.
  split.
  - unfold in_row. destruct (table s !! "x") as [r|]; [eauto|]. by apply elem_of_nil in H3.
  - split.
    + intros (r & Hz & Hin). rewrite Hz in H4. done.
    + split; by apply (bool_decide_unpack _); vm_compute.
Qed.
