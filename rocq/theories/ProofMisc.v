(** Proofs for the small components. *)
From Verif Require Import GoBase ModelMisc SpecMisc ProofFloat.

(** * info.go *)
Lemma units_lem d : 0 <= d →
  ToKB d = d / 1024 ∧ ToMB d = d / 1024 ^ 2 ∧ ToGB d = d / 1024 ^ 3.
Proof.
  intros Hd. unfold ToKB, ToMB, ToGB. rewrite !Z.div_div by lia. done.
Qed.

Lemma used_lem init cur :
  0 <= init < 2 ^ 64 → 0 <= cur < 2 ^ 64 →
  usedSince init (cur, false) = (if init <=? cur then cur - init else 2 ^ 64 - (init - cur), false) ∧
  ∀ v, usedSince init (v, true) = (0, true).
Proof.
  intros Hi Hc. split; [|done]. unfold usedSince. cbn [fst snd]. f_equal.
  unfold u64. destruct (Z.leb_spec init cur).
  - apply Z.mod_small. lia.
  - symmetry. apply Z.mod_unique with (q := -1); lia.
Qed.

(** * core/data.go *)
Lemma grun_app cs c : grun (cs ++ [c]) = gstep (grun cs) c.
Proof. unfold grun. by rewrite foldl_app. Qed.


Lemma shardOr_step g c s :
  shardOr (gstep g c) s =
  match c with
  | GAddDoc s' id i => if s' =? s then mkDIS (<[id := i]> (DocInfos (shardOr g s))) (u64 (NumDocs (shardOr g s) + 1))
                       else shardOr g s
  | _ => shardOr g s
  end.
Proof.
  destruct c as [s'|s' id i|s'|s' k i]; unfold shardOr; cbn [gstep].
  - unfold AddDocInfosShard. destruct (DocInfoGroup g !! s') eqn:E; [done|]. cbn.
    destruct (decide (s' = s)) as [->|]; [rewrite lookup_insert, E; done|by rewrite lookup_insert_ne].
  - unfold AddDocInfo. cbn. destruct (Z.eqb_spec s' s) as [->|].
    + rewrite lookup_insert. cbn. by destruct (DocInfoGroup g !! s).
    + by rewrite lookup_insert_ne.
  - unfold AddInvertedIndexShard. by destruct (InvertedIndexGroup g !! s').
  - done.
Qed.

Lemma ishardOr_step g c s :
  ishardOr (gstep g c) s =
  match c with
  | GAddKeyword s' k i => if s' =? s then mkIIS (<[k := i]> (InvertedIndex (ishardOr g s)))
                            (f32_add (TotalTokenLen (ishardOr g s)) (f32_of_Z 1))
                       else ishardOr g s
  | _ => ishardOr g s
  end.
Proof.
  destruct c as [s'|s' id i|s'|s' k i]; unfold ishardOr; cbn [gstep].
  - unfold AddDocInfosShard. by destruct (DocInfoGroup g !! s').
  - done.
  - unfold AddInvertedIndexShard. destruct (InvertedIndexGroup g !! s') eqn:E; [done|]. cbn.
    destruct (decide (s' = s)) as [->|]; [rewrite lookup_insert, E; done|by rewrite lookup_insert_ne].
  - unfold AddKeywordIndices. cbn. destruct (Z.eqb_spec s' s) as [->|].
    + rewrite lookup_insert. cbn. by destruct (InvertedIndexGroup g !! s).
    + by rewrite lookup_insert_ne.
Qed.

Lemma addedTo_app s cs c : addedTo s (cs ++ [c]) = addedTo s cs ++ addedTo s [c].
Proof. unfold addedTo. apply omap_app. Qed.

Lemma infos_last s id cs : DocInfos (shardOr (grun cs) s) !! id = lastInfo s id cs.
Proof.
  induction cs as [|c cs IH] using rev_ind; [done|].
  rewrite grun_app, shardOr_step. unfold lastInfo. rewrite omap_app.
  destruct c as [s'|s' id' i|s'|s' k i]; cbn; rewrite ?app_nil_r; try exact IH.
  destruct (Z.eqb_spec s' s) as [->|]; cbn; [|rewrite app_nil_r; exact IH].
  unfold seqb. destruct (String.eqb_spec id' id) as [->|].
  - rewrite lookup_insert. by rewrite last_snoc.
  - rewrite lookup_insert_ne by done. rewrite app_nil_r. exact IH.
Qed.

Lemma lastInfo_is s id cs : is_Some (lastInfo s id cs) ↔ id ∈ addedTo s cs.
Proof.
  unfold lastInfo, addedTo. rewrite last_is_Some. split.
  - intros Hne. destruct (omap _ cs) as [|i l] eqn:E; [done|].
    assert (i ∈ i :: l) as Hi by left. rewrite <- E in Hi.
    apply elem_of_list_omap in Hi as (c & Hc & Hm). apply elem_of_list_omap.
    exists c. split; [done|]. destruct c as [|s' id' i'| |]; try done.
    destruct (s' =? s); [|done]. cbn in Hm. unfold seqb in Hm.
    destruct (String.eqb_spec id' id); [by subst|done].
  - intros H. apply elem_of_list_omap in H as (c & Hc & Hm).
    destruct c as [|s' id' i'| |]; try done. destruct (Z.eqb_spec s' s) as [->|]; [|done].
    injection Hm as ->. intros E.
    assert (i' ∈ @nil DocInfoPtr) as Hi; [|by apply elem_of_nil in Hi].
    rewrite <- E. apply elem_of_list_omap. exists (GAddDoc s id i'). split; [done|].
    cbn. rewrite Z.eqb_refl. cbn. unfold seqb. by rewrite String.eqb_refl.
Qed.

Lemma exist_iff g id :
  IsDocExist id g = true ↔ ∃ s, is_Some (DocInfos (shardOr g s) !! id).
Proof.
  unfold IsDocExist. rewrite existsb_exists. split.
  - intros ([s sh] & Hin & Hb). apply elem_of_list_In, elem_of_map_to_list in Hin.
    exists s. unfold shardOr. rewrite Hin. cbn in *. by apply bool_decide_eq_true in Hb.
  - intros [s Hs]. unfold shardOr in Hs.
    destruct (DocInfoGroup g !! s) as [sh|] eqn:E; cbn in Hs.
    + exists (s, sh). split; [by apply elem_of_list_In, elem_of_map_to_list|].
      by apply bool_decide_eq_true.
    + rewrite lookup_empty in Hs. by destruct Hs.
Qed.

Lemma exists_lem cs id :
  IsDocExist id (grun cs) = true ↔ ∃ shard info, GAddDoc shard id info ∈ cs.
Proof.
  rewrite exist_iff. setoid_rewrite infos_last. setoid_rewrite lastInfo_is.
  unfold addedTo. split.
  - intros [s H]. apply elem_of_list_omap in H as (c & Hc & Hm).
    destruct c as [|s' id' i'| |]; try done. destruct (s' =? s); [|done].
    injection Hm as ->. eauto.
  - intros (s & i & H). exists s. apply elem_of_list_omap. eexists. split; [exact H|].
    cbn. by rewrite Z.eqb_refl.
Qed.

Lemma numDocs_lem cs s : NumDocs (shardOr (grun cs) s) = u64 (zlen (addedTo s cs)).
Proof.
  induction cs as [|c cs IH] using rev_ind; [done|].
  rewrite grun_app, shardOr_step, addedTo_app, zlen_app.
  destruct c as [s'|s' id' i|s'|s' k i];
    try (change (addedTo s [_]) with (@nil string); rewrite zlen_nil, Z.add_0_r; exact IH).
  replace (addedTo s [GAddDoc s' id' i]) with (if s' =? s then [id'] else [])
    by (unfold addedTo; cbn; by destruct (s' =? s)).
  destruct (Z.eqb_spec s' s) as [->|].
  - cbn [NumDocs]. rewrite IH.
    unfold u64. change (zlen [id']) with 1. by rewrite Z.add_mod_idemp_l by lia.
  - rewrite zlen_nil, Z.add_0_r. exact IH.
Qed.


(** distinct ids + repetitions = calls *)
Lemma repeats_lem ids : ∀ seen (m : gset string), (∀ x, x ∈ m ↔ x ∈ seen) →
  (length ids + size m = size (m ∪ list_to_set ids) + repeats seen ids)%nat.
Proof.
  induction ids as [|id ids IH]; intros seen m Hm; cbn [repeats length list_to_set].
  { rewrite union_empty_r_L. lia. }
  pose proof (IH (id :: seen) ({[id]} ∪ m)) as P.
  assert (Hm' : ∀ x, x ∈ {[id]} ∪ m ↔ x ∈ id :: seen) by (intros x; rewrite elem_of_cons; set_solver).
  specialize (P Hm').
  replace (m ∪ ({[id]} ∪ list_to_set ids)) with ({[id]} ∪ m ∪ list_to_set ids) by set_solver.
  destruct (bool_decide_reflect (id ∈ seen)) as [Hin|Hin].
  - assert ({[id]} ∪ m = m) as E by (apply Hm in Hin; set_solver). rewrite E in *. lia.
  - rewrite size_union, size_singleton in P by (rewrite <- Hm in Hin; set_solver). lia.
Qed.

Lemma dom_added cs s : dom (DocInfos (shardOr (grun cs) s)) = (list_to_set (addedTo s cs) : gset string).
Proof.
  apply set_eq. intros x. rewrite elem_of_dom, infos_last, lastInfo_is. by rewrite elem_of_list_to_set.
Qed.

Lemma count_lem cs s :
  NumDocs (shardOr (grun cs) s) = u64 (zlen (addedTo s cs)) ∧
  zlen (addedTo s cs) = Z.of_nat (size (DocInfos (shardOr (grun cs) s))) + Z.of_nat (repeats [] (addedTo s cs)).
Proof.
  split; [apply numDocs_lem|].
  pose proof (repeats_lem (addedTo s cs) [] ∅) as P. rewrite size_empty, union_empty_l_L in P.
  rewrite <- size_dom, dom_added. unfold zlen.
  specialize (P ltac:(intros x; set_solver)). lia.
Qed.

(** the float counter stops at 2^24 *)
Lemma f32_sat n : 0 <= n → f32_add (f32_of_Z (Z.min n (2 ^ 24))) (f32_of_Z 1) = f32_of_Z (Z.min (n + 1) (2 ^ 24)).
Proof.
  intros Hn. destruct (Z.lt_ge_cases (n + 1) (2 ^ 24)) as [H|H].
  - rewrite !Z.min_l by lia. apply f32_add_exact; lia.
  - destruct (Z.eq_dec (n + 1) (2 ^ 24)) as [E|E].
    + rewrite !Z.min_l by lia. replace n with (2 ^ 24 - 1) by lia. vm_compute. done.
    + rewrite !Z.min_r by lia. vm_compute. done.
Qed.

Lemma rows_lem cs s : TotalTokenLen (ishardOr (grun cs) s) = f32_of_Z (Z.min (rowsTo s cs) (2 ^ 24)).
Proof.
  induction cs as [|c cs IH] using rev_ind; [by vm_compute|].
  rewrite grun_app, ishardOr_step. unfold rowsTo in *. rewrite omap_app, zlen_app.
  destruct c as [s'|s' id' i|s'|s' k i]; cbn [omap list_omap];
    try (rewrite zlen_nil, Z.add_0_r; exact IH).
  destruct (Z.eqb_spec s' s) as [->|].
  - cbn [TotalTokenLen]. rewrite IH. change (zlen [k]) with 1. apply f32_sat, zlen_nonneg.
  - rewrite zlen_nil, Z.add_0_r. exact IH.
Qed.

(** * heartbeat *)
Lemma failures_app a b : failures (a ++ b) = failures a + failures b.
Proof. unfold failures. by rewrite filter_app, zlen_app. Qed.
Lemma failures_nonneg a : 0 <= failures a.
Proof. apply zlen_nonneg. Qed.

Lemma int32_id x : - 2 ^ 31 <= x < 2 ^ 31 → int32 x = x.
Proof. intros H. unfold int32. rewrite Z.mod_small; lia. Qed.

Lemma heart_failures r rpc : - 2 ^ 31 <= rpc < 2 ^ 31 - 1 → heart r rpc = rpc + failures [r].
Proof.
  intros H. unfold failures. rewrite filter_cons, filter_nil. unfold heart, failed.
  destruct r as [|v]; cbn.
  - destruct (decide _) as [_|n]; [|exfalso; by apply n]. change (zlen [ProbeErr]) with 1.
    apply int32_id. lia.
  - destruct (Z.eqb_spec v 1) as [->|Hv]; cbn.
    + destruct (decide _) as [n|_]; [by destruct n|]. change (zlen []) with 0. lia.
    + destruct (decide _) as [_|n]; [|exfalso; apply n; congruence].
      change (zlen [ProbeResult v]) with 1. apply int32_id. lia.
Qed.

Lemma events_app rs r : monitorEvents (rs ++ [r]) = monitorEvents rs ++ [HProbe 0 r; HCheck 0].
Proof.
  induction rs as [|x rs IH]; [done|].
  change (monitorEvents ((x :: rs) ++ [r])) with ([HProbe 0 x; HCheck 0] ++ monitorEvents (rs ++ [r])).
  by rewrite IH.
Qed.

Lemma monitor_app rs r :
  monitor (rs ++ [r]) = hstep (hstep (monitor rs) (HProbe 0 r)) (HCheck 0).
Proof.
  unfold monitor, hrun. rewrite events_app, foldl_app. done.
Qed.

Lemma monitor_lem rs :
  monitor rs = (failures rs mod 4, replicate (Z.to_nat (failures rs / 4)) 0%nat).
Proof.
  induction rs as [|r rs IH] using rev_ind; [done|].
  rewrite monitor_app, IH, failures_app. cbn [hstep].
  pose proof (failures_nonneg rs) as Hf. set (f := failures rs) in *. clearbody f.
  pose proof (Z.div_mod f 4 ltac:(lia)) as D. pose proof (Z.mod_pos_bound f 4 ltac:(lia)) as B.
  rewrite heart_failures by lia.
  assert (failures [r] = 0 ∨ failures [r] = 1) as Hr.
  { unfold failures. rewrite filter_cons, filter_nil. case_decide; [by right|by left]. }
  destruct (Z.gtb_spec (f mod 4 + failures [r]) 3) as [H|H].
  - assert (f + failures [r] = 4 * (f / 4 + 1) + 0) as E by lia. f_equal.
    + apply Z.mod_unique with (q := f / 4 + 1); lia.
    + assert ((f + failures [r]) / 4 = f / 4 + 1) as ->.
      { symmetry. apply Z.div_unique with (r := 0); lia. }
      assert (0 <= f / 4) by (apply Z.div_pos; lia).
      replace (Z.to_nat (f / 4 + 1)) with (S (Z.to_nat (f / 4))) by lia.
      by rewrite <- replicate_cons_app.
  - f_equal.
    + apply Z.mod_unique with (q := f / 4); lia.
    + do 2 f_equal. apply Z.div_unique with (r := f mod 4 + failures [r]); lia.
Qed.

(** the restart of a reset, and what follows *)
Lemma hrun_app a b : hrun (a ++ b) = foldl hstep (hrun a) b.
Proof. unfold hrun. by rewrite foldl_app. Qed.


Lemma quiet_run es2 : ∀ rpc l,
  0 <= rpc → rpc + failures (answersOf es2) < 2 ^ 31 →
  (∀ a e b, es2 = a ++ e :: b →
     match e with HKill => False | HCheck _ => ¬ (foldl hstep (rpc, l) a).1 > 3 | HProbe _ _ => True end) →
  foldl hstep (rpc, l) es2 = (rpc + failures (answersOf es2), l).
Proof.
  induction es2 as [|e es2 IH]; intros rpc l H0 Hb Hq.
  { cbn. by rewrite Z.add_0_r. }
  assert (Hq' : ∀ st, hstep (rpc, l) e = st → ∀ a e' b, es2 = a ++ e' :: b →
     match e' with HKill => False | HCheck _ => ¬ (foldl hstep st a).1 > 3 | HProbe _ _ => True end).
  { intros st <- a e' b ->. exact (Hq (e :: a) e' b eq_refl). }
  pose proof (Hq [] e es2 eq_refl) as He. cbn [foldl].
  destruct e as [m r|m|]; [| |done].
  - cbn [hstep]. cbn [answersOf omap list_omap] in *.
    change (failures (r :: omap _ es2)) with (failures ([r] ++ answersOf es2)) in *.
    rewrite failures_app in *. pose proof (failures_nonneg (answersOf es2)) as P1.
    pose proof (failures_nonneg [r]) as P2.
    assert (heart r rpc = rpc + failures [r]) as E.
    { destruct (Z.eq_dec (failures [r]) 0) as [E0|E0].
      - unfold heart. unfold failures in *. rewrite filter_cons, filter_nil in *.
        case_decide as Hd; [done|]. unfold failed in Hd. destruct r as [|v]; [exfalso; by apply Hd|].
        destruct (Z.eqb_spec v 1); [cbn; lia|]. exfalso. apply Hd. congruence.
      - apply heart_failures. lia. }
    cbn [hstep] in Hq'. rewrite E in *.
    rewrite IH; [f_equal; lia|lia|lia|by apply Hq'].
  - cbn [foldl fst] in He. cbn [hstep] in *. destruct (Z.gtb_spec rpc 3); [lia|].
    apply IH; [done|done|by apply Hq'].
Qed.

Lemma check_lem es1 e es2 m :
  resets es1 e →
  (∀ a e' b, es2 = a ++ e' :: b → ¬ resets (es1 ++ e :: a) e') →
  failures (answersOf es2) < 2 ^ 31 →
  (hrun ((es1 ++ e :: es2) ++ [HCheck m])).2 =
    (hrun (es1 ++ e :: es2)).2 ++ (if 3 <? failures (answersOf es2) then [m] else []).
Proof.
  intros He Hq Hb. rewrite hrun_app. cbn [foldl].
  assert ((hrun (es1 ++ [e])).1 = 0) as E0.
  { rewrite hrun_app. cbn [foldl]. destruct (hrun es1) as [rpc l] eqn:E.
    destruct e as [| |]; [done| |done]. cbn in He |- *. rewrite E in He. cbn in He.
    destruct (Z.gtb_spec rpc 3); [done|lia]. }
  assert (hrun (es1 ++ e :: es2) = (failures (answersOf es2), (hrun (es1 ++ [e])).2)) as ->.
  { replace (es1 ++ e :: es2) with ((es1 ++ [e]) ++ es2) by (by rewrite <- app_assoc).
    rewrite hrun_app. destruct (hrun (es1 ++ [e])) as [rpc l] eqn:E. cbn in E0. subst rpc.
    rewrite quiet_run; [by rewrite Z.add_0_l|done|lia|].
    intros a e' b ->. pose proof (Hq a e' b eq_refl) as P.
    replace (es1 ++ e :: a) with ((es1 ++ [e]) ++ a) in P by (by rewrite <- app_assoc).
    destruct e'; [done| |by destruct P]. cbn [resets] in P. rewrite hrun_app, E in P. done. }
  cbn [hstep snd]. destruct (Z.gtb_spec (failures (answersOf es2)) 3), (Z.ltb_spec 3 (failures (answersOf es2)));
    try lia; cbn [snd]; [done|by rewrite app_nil_r].
Qed.

(** failures spread arbitrarily far apart still add up *)
Definition spread (k : nat) : list probe :=
  mjoin (replicate 4 (ProbeErr :: replicate k (ProbeResult 1))).

Lemma spread_failures k : failures (spread k) = 4.
Proof.
  assert (∀ j, failures (replicate j (ProbeResult 1)) = 0) as H.
  { induction j as [|j IH]; [done|]. cbn [replicate].
    change (failures ([ProbeResult 1] ++ replicate j (ProbeResult 1)) = 0).
    rewrite failures_app, IH. done. }
  unfold spread. cbn [replicate mjoin list_join].
  change (ProbeErr :: replicate k (ProbeResult 1)) with ([ProbeErr] ++ replicate k (ProbeResult 1)).
  rewrite !failures_app, !H. done.
Qed.

Lemma spread_gap k i j ri rj :
  spread k !! i = Some ri → spread k !! j = Some rj → failed ri → failed rj → (i < j)%nat →
  (k < j - i)%nat.
Proof.
  assert (∀ n i r, mjoin (replicate n (ProbeErr :: replicate k (ProbeResult 1))) !! i = Some r →
    failed r → ∃ q, i = (q * S k)%nat) as H.
  { induction n as [|n IH]; intros i0 r E Hf; [done|]. cbn [replicate mjoin list_join] in E.
    apply lookup_app_Some in E as [E|[Hl E]].
    - destruct i0 as [|i0]; [exists 0%nat; lia|]. cbn in E.
      apply lookup_replicate in E as [-> _]. by destruct Hf.
    - destruct (IH _ _ E Hf) as [q Hq]. cbn [length] in *. rewrite replicate_length in *.
      exists (S q). lia. }
  intros Ei Ej Fi Fj Hij. destruct (H _ _ _ Ei Fi) as [qi ->], (H _ _ _ Ej Fj) as [qj ->].
  assert (S qi <= qj)%nat as Hq by nia.
  pose proof (Nat.mul_le_mono_r _ _ (S k) Hq). lia.
Qed.

Lemma spread_lem k : ∃ rs,
  (monitor rs).2 = [0%nat] ∧
  ∀ i j ri rj, rs !! i = Some ri → rs !! j = Some rj → failed ri → failed rj → (i < j)%nat →
    (k < j - i)%nat.
Proof.
  exists (spread k). split; [|intros; by eapply spread_gap].
  rewrite monitor_lem, spread_failures. done.
Qed.
