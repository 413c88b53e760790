(** Theorems about searches while documents are being written. *)
From Verif Require Import ModelPipe ModelEngine ModelFlight SpecIndexer SpecSearch SpecRank SpecRoute SpecPipe SpecEngine
  SpecFlight SpecEnd SpecDuring ProofIxThms ProofSortBy ProofFlushThms ProofDuring ExampleTools PropPipe PropEngine PropEnd
  PropFlight.

(** * C84: a search finds the documents that are in the engine when it starts, whatever is
    written meanwhile, and a later search finds them again *)
Theorem C84_settled_documents_are_found murmur n only reqsFirst cap sortDocs o s0 nseg progs log2 sortBy ccap
    clients tl tr shards ls fs ps ans req t0 :
  1 <= n < 2^32 → valid_sort sortDocs → Init o = Some s0 → Forall good_call (mjoin progs) → valid_sortBy sortBy →
  frun log2 sortBy (Z.to_nat n) ccap ls (fInit (Z.to_nat n) clients tl tr shards) = Some fs →
  written_by (pipeStep murmur n only reqsFirst cap) (pipeInit n nseg progs) sortDocs s0 only n (fWorlds fs) ps →
  ans ∈ fAnswers fs → fReqs fs !! faSearch ans = Some (req, t0) →
  plain_request o req → Forall (scores_numbers log2 req) (fWorlds fs) →
  ∃ full out, faResp ans = mkResp (rqTokens req) false (zlen full) (Some out) ∧ page_of req full out ∧
    answers_during only (mjoin progs) (fWorlds fs) t0 (faEnd ans) req full.
Proof.
  intros Hn Hv HI Hg. exact (during_lem murmur n only reqsFirst cap Hn sortDocs o s0 nseg progs Hv HI Hg log2 sortBy ccap
    clients tl tr shards ls fs ps ans req t0).
Qed.
Print Assumptions C84_settled_documents_are_found.

Theorem C84_nothing_disappears murmur n only reqsFirst cap sortDocs o s0 nseg progs log2 sortBy ccap
    clients tl tr shards ls fs ps a1 a2 req t1 t2 :
  1 <= n < 2^32 → valid_sort sortDocs → Init o = Some s0 → Forall good_call (mjoin progs) → valid_sortBy sortBy →
  frun log2 sortBy (Z.to_nat n) ccap ls (fInit (Z.to_nat n) clients tl tr shards) = Some fs →
  written_by (pipeStep murmur n only reqsFirst cap) (pipeInit n nseg progs) sortDocs s0 only n (fWorlds fs) ps →
  a1 ∈ fAnswers fs → fReqs fs !! faSearch a1 = Some (req, t1) →
  a2 ∈ fAnswers fs → fReqs fs !! faSearch a2 = Some (req, t2) → (faEnd a1 <= t2)%nat →
  plain_request o req → Forall (scores_numbers log2 req) (fWorlds fs) →
  ∃ full1 out1 full2 out2,
    faResp a1 = mkResp (rqTokens req) false (zlen full1) (Some out1) ∧ page_of req full1 out1 ∧
    faResp a2 = mkResp (rqTokens req) false (zlen full2) (Some out2) ∧ page_of req full2 out2 ∧
    answers_during only (mjoin progs) (fWorlds fs) t1 (faEnd a1) req full1 ∧
    answers_during only (mjoin progs) (fWorlds fs) t2 (faEnd a2) req full2 ∧
    ∀ d f ct a fo, only_call (mjoin progs) (DocId d) (EIndex d f ct a fo) →
      score_accepts (ScoringCriteria (rqOpts req)) (DocId d) f →
      DocId d ∈ sdDocId <$> full1 → DocId d ∈ sdDocId <$> full2.
Proof.
  intros Hn Hv HI Hg. exact (later_lem murmur n only reqsFirst cap Hn sortDocs o s0 nseg progs Hv HI Hg log2 sortBy ccap
    clients tl tr shards ls fs ps a1 a2 req t1 t2).
Qed.
Print Assumptions C84_nothing_disappears.

(** With one call for each id and no document rejected by the scoring, the number of
    documents found never falls from a search to a later one. *)
Theorem C84_count_never_falls murmur n only reqsFirst cap sortDocs o s0 nseg progs log2 sortBy ccap
    clients tl tr shards ls fs ps a1 a2 req t1 t2 :
  1 <= n < 2^32 → valid_sort sortDocs → Init o = Some s0 → Forall good_call (mjoin progs) →
  NoDup (omap call_id (mjoin progs)) →
  (∀ d f ct a fo, EIndex d f ct a fo ∈ mjoin progs → score_accepts (ScoringCriteria (rqOpts req)) (DocId d) f) →
  valid_sortBy sortBy →
  frun log2 sortBy (Z.to_nat n) ccap ls (fInit (Z.to_nat n) clients tl tr shards) = Some fs →
  written_by (pipeStep murmur n only reqsFirst cap) (pipeInit n nseg progs) sortDocs s0 only n (fWorlds fs) ps →
  a1 ∈ fAnswers fs → fReqs fs !! faSearch a1 = Some (req, t1) →
  a2 ∈ fAnswers fs → fReqs fs !! faSearch a2 = Some (req, t2) → (faEnd a1 <= t2)%nat →
  plain_request o req → Forall (scores_numbers log2 req) (fWorlds fs) →
  rsNumDocs (faResp a1) <= rsNumDocs (faResp a2).
Proof.
  intros Hn Hv HI Hg. exact (count_lem murmur n only reqsFirst cap Hn sortDocs o s0 nseg progs Hv HI Hg log2 sortBy ccap
    clients tl tr shards ls fs ps a1 a2 req t1 t2).
Qed.
Print Assumptions C84_count_never_falls.

(** Two clients write to two shards while a third one searches for "x" three times.  "a"
    comes in while the first search is on its way, "c" during the second. *)
Definition dp (k m : nat) (s : pstate) : option pstate :=
  psched hashAB 2 false true PropPipe.cap1 (take m (drop k endSched)) s.
Definition duringStates : option (list pstate) :=
  p0 ← dp 0 20 (pipeInit 2 1 endProgs); p1 ← dp 20 27 p0; p2 ← dp 47 10 p1; p3 ← dp 57 16 p2; Some [p0; p1; p2; p3].
Definition exTurns (k : nat) (r : list flabel * fstate) : option (list flabel * fstate) :=
  let ls := driven 2 (take k (rounds 40 5)) (snd r) in s ← exRun 2 ls (snd r); Some (fst r ++ ls, s).
Definition exWrite (i : nat) (p : pstate) (r : list flabel * fstate) : option (list flabel * fstate) :=
  sh ← endShards p !! i; s ← exStep 2 (LWrite i sh) (snd r); Some (fst r ++ [LWrite i sh], s).
Definition duringInit (p : pstate) : fstate :=
  fInit 2 [[exReq 0 0 false 0; exReq 0 0 false 0; exReq 0 0 false 0]] 1 1 (endShards p).
Definition duringRun (ps : list pstate) (a b c d : nat) : option (list flabel) :=
  match ps with
  | [p0; p1; p2; p3] =>
    r0 ← exTurns a ([], duringInit p0);
    r1 ← exWrite 0 p1 r0; r2 ← exTurns b r1; r3 ← exWrite 0 p2 r2; r4 ← exTurns c r3; r5 ← exWrite 1 p3 r4;
    r6 ← exTurns d r5; Some (fst r6)
  | _ => None
  end.
Definition seenAnswers (fs : fstate) : list (option (list string) * Z * nat) :=
  (λ a, (respIds (faResp a), faEnd a)) <$> fAnswers fs.
Definition has_rk (sh : Shard) (id : string) : bool :=
  HasDoc (shIx sh) id && match rDocs (shRk sh) !! id with Some _ => true | None => false end.
Lemma has_rk_settled ws t w id : ws !! t = Some w → existsb (λ sh, has_rk sh id) w = true → settled ws t id.
Proof.
  intros Hw (sh & Hs & H)%existsb_exists. apply elem_of_list_In, elem_of_list_lookup in Hs as [i Hi].
  apply andb_true_iff in H as [Hh Hk]. exists w, i, sh. repeat (split; [done|]). by destruct (rDocs (shRk sh) !! id).
Qed.
Lemma has_rk_of ws t w id : ws !! t = Some w → settled ws t id → existsb (λ sh, has_rk sh id) w = true.
Proof.
  intros Hw (w' & i & sh & Hw' & Hi & Hh & [y Hk]). rewrite Hw in Hw'. injection Hw' as <-. apply existsb_exists. exists sh.
  split; [apply elem_of_list_In, elem_of_list_lookup; by exists i|]. unfold has_rk. by rewrite Hh, Hk.
Qed.
Lemma duringStates_ok ps : duringStates = Some ps → ∃ p0 p1 p2 p3, ps = [p0; p1; p2; p3] ∧
  dp 0 20 (pipeInit 2 1 endProgs) = Some p0 ∧ dp 20 27 p0 = Some p1 ∧ dp 47 10 p1 = Some p2 ∧ dp 57 16 p2 = Some p3.
Proof.
  unfold duringStates. intros (p0 & H0 & (p1 & H1 & (p2 & H2 & (p3 & H3 & [= <-])%bind_Some)%bind_Some)%bind_Some)%bind_Some.
  exists p0, p1, p2, p3. split; [reflexivity|]. repeat (split; [assumption|]). assumption.
Qed.
Lemma during_written s0 ps : Init (optsF 2) = Some s0 → duringStates = Some ps →
  forallb (λ p, Nat.eqb (length (endShards p)) 2) ps = true →
  written_by (pipeStep hashAB 2 false true PropPipe.cap1) (pipeInit 2 1 endProgs) stableSort s0 false 2 (endShards <$> ps) ps.
Proof.
  intros HI Hp Hl. clear -HI Hp Hl. destruct (duringStates_ok ps Hp) as (p0 & p1 & p2 & p3 & -> & H0 & H1 & H2 & H3). split; [|split].
  - intros p Ha. injection Ha as <-. eapply psched_reach. exact H0.
  - intros [|[|[|[|t]]]] p q Ha Hb; try discriminate Ha; try discriminate Hb; injection Ha as <-; injection Hb as <-;
      eapply psched_reach; [exact H1|exact H2|exact H3].
  - clear H0 H1 H2 H3. rewrite forallb_forall in Hl. rewrite <- (list_fmap_id [p0; p1; p2; p3]) at 1.
    apply Forall2_fmap. apply Forall_Forall2_diag, Forall_forall. intros p Hin. apply endShards_ok; [exact HI|].
    apply Nat.eqb_eq, Hl. by apply elem_of_list_In.
Qed.
Definition withRun (st : option (list pstate)) (rn : list pstate → option (list flabel))
    (ex : list flabel → pstate → option fstate) (P : list pstate → fstate → Prop) : Prop :=
  match st with
  | Some ps =>
    match rn ps, ps with
    | Some ls, p0 :: _ => match ex ls p0 with Some fs => P ps fs | None => False end
    | _, _ => False
    end
  | None => False
  end.
Lemma withRun_some st rn ex P : withRun st rn ex P → ∃ ps p0 ls fs, st = Some ps ∧ ps !! 0%nat = Some p0 ∧ ex ls p0 = Some fs ∧ P ps fs.
Proof.
  unfold withRun. destruct st as [[|p0 ps]|]; [by destruct (rn [])| |done]. destruct (rn (p0 :: ps)) as [ls|]; [|done].
  destruct (ex ls p0) as [fs|] eqn:E; [|done]. intros H. by exists (p0 :: ps), p0, ls, fs.
Qed.
Definition duringCheck (ps : list pstate) (fs : fstate) : bool :=
  forallb (λ p, Nat.eqb (length (endShards p)) 2) ps &&
  bool_decide (seenAnswers fs = [(Some ["b"; "a"], 2, 2%nat); (Some ["c"; "b"; "a"], 3, 3%nat); (Some ["c"; "b"; "a"], 3, 3%nat)]) &&
  bool_decide (snd <$> fReqs fs = [0; 2; 3]%nat) &&
  match fWorlds fs !! 0%nat, fWorlds fs !! 2%nat with
  | Some w0, Some w3 => existsb (λ sh, has_rk sh "b") w0 && negb (existsb (λ sh, has_rk sh "a") w0) && existsb (λ sh, has_rk sh "a") w3
  | _, _ => false
  end.
Lemma during_computed : withRun duringStates (λ ps, duringRun ps 5 10 40 200) (λ ls p0, exRun 2 ls (duringInit p0))
  (λ ps fs, fWorlds fs = endShards <$> ps ∧ duringCheck ps fs = true).
Proof. vm_compute. split; reflexivity. Qed.
Lemma endProgs_good : Forall good_call (mjoin endProgs).
Proof.
  repeat (apply Forall_cons; split); try (apply Forall_nil; done); try done; apply (bool_decide_unpack _); by vm_compute.
Qed.
Lemma endProgs_scored d f ct a fo : EIndex d f ct a fo ∈ mjoin endProgs → score_accepts numScore (DocId d) f.
Proof.
  intros Hin x _. repeat (apply elem_of_cons in Hin as [Hin|Hin]; [try discriminate Hin; injection Hin as -> -> -> -> ->; by vm_compute|]).
  by apply elem_of_nil in Hin.
Qed.
Lemma endProgs_once : NoDup (omap call_id (mjoin endProgs)) ∧ only_call (mjoin endProgs) "b" (idxB true).
Proof. split; [apply (bool_decide_unpack _); by vm_compute|by vm_compute]. Qed.
Lemma plain_ex : plain_request (optsF 2) (exReq 0 0 false 0) ∧ score_nan_free numScore.
Proof. split; [by repeat split|intros x f; apply numScore_num]. Qed.
(** The call of "b" is the only one for this id; "b" is in when the first search starts. *)
Example C84_case : ∃ s0 ps p0 ls fs, Init (optsF 2) = Some s0 ∧ Forall good_call (mjoin endProgs) ∧
  NoDup (omap call_id (mjoin endProgs)) ∧
  exRun 2 ls (fInit 2 [[exReq 0 0 false 0; exReq 0 0 false 0; exReq 0 0 false 0]] 1 1 (endShards p0)) = Some fs ∧
  written_by (pipeStep hashAB 2 false true PropPipe.cap1) (pipeInit 2 1 endProgs) stableSort s0 false 2 (fWorlds fs) ps ∧
  plain_request (optsF 2) (exReq 0 0 false 0) ∧ score_nan_free numScore ∧
  (∀ d f ct a fo, EIndex d f ct a fo ∈ mjoin endProgs → score_accepts numScore (DocId d) f) ∧
  only_call (mjoin endProgs) "b" (idxB true) ∧
  settled (fWorlds fs) 0 "b" ∧ ¬ settled (fWorlds fs) 0 "a" ∧ settled (fWorlds fs) 2 "a" ∧ snd <$> fReqs fs = [0; 2; 3]%nat ∧
  seenAnswers fs = [(Some ["b"; "a"], 2, 2%nat); (Some ["c"; "b"; "a"], 3, 3%nat); (Some ["c"; "b"; "a"], 3, 3%nat)].
Proof.
  destruct (withRun_some _ _ _ _ during_computed) as (ps & p0 & ls & fs & Hp & H0 & Hr & Hw & Hc).
  destruct (Init (optsF 2)) as [s0|] eqn:HI; [|discriminate HI]. exists s0, ps, p0, ls, fs.
  unfold duringCheck in Hc. rewrite !andb_true_iff, !bool_decide_eq_true in Hc. destruct Hc as (((Hl & Ha) & Hq) & Hs).
  destruct (fWorlds fs !! 0%nat) as [w0|] eqn:E0; [|discriminate Hs]. destruct (fWorlds fs !! 2%nat) as [w3|] eqn:E3; [|discriminate Hs].
  rewrite !andb_true_iff in Hs. destruct Hs as ((S0 & S1) & S2).
  split; [reflexivity|].
  split; [exact endProgs_good|]. split; [exact (proj1 endProgs_once)|]. split; [exact Hr|].
  split; [rewrite Hw; exact (during_written s0 ps HI Hp Hl)|]. split; [exact (proj1 plain_ex)|]. split; [exact (proj2 plain_ex)|].
  split; [exact endProgs_scored|]. split; [exact (proj2 endProgs_once)|]. split; [exact (has_rk_settled _ _ _ _ E0 S0)|].
  split; [intros HS%(has_rk_of _ _ _ _ E0); rewrite HS in S1; discriminate S1|].
  split; [exact (has_rk_settled _ _ _ _ E3 S2)|]. split; [exact Hq|exact Ha].
Qed.
