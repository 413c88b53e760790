(** Theorems about searches while a session of the engine is running. *)
From Verif Require Import ModelSession ModelEngine ModelFlight SpecIndexer SpecSearch SpecRank SpecRoute SpecPipe SpecSegment SpecEngine SpecFlight
  SpecStore SpecEnd SpecLife SpecClose SpecWhole SpecSession SpecDuring SpecSessionDuring ProofIxThms ProofSortBy ProofFlushThms ProofSessionThms
  ProofSessionDuring ExampleTools PropPipe PropEngine PropEnd PropFlight PropStore PropSegment PropLife PropWhole PropSession PropDuring.

(** * C92: searches beside the writes of a session on existing files *)
(** Any number of clients index, remove and flush while others search.  A document from
    the files or from one call is found if it is in the engine when the search starts, and
    it is in the engine when the search ends if it was found. *)
Theorem C92_documents_of_files_and_calls_are_found murmur n only reqsFirst cap accepts encode nS reqsFirst2 iter decode X stop o
    sortDocs io s0 nseg recs progs dbs log2 sortBy ccap clients tl tr shards ls fs ss ans req t0 :
  1 <= n < 2^32 → 1 <= nS < 2^32 → valid_iter iter → valid_range X → valid_sort sortDocs → Init io = Some s0 →
  placed murmur nS dbs → no_zero nS dbs → recoverProgs iter decode X stop o nS dbs = Some recs →
  made_of X stop o (mjoin progs) → valid_sortBy sortBy →
  frun log2 sortBy (Z.to_nat n) ccap ls (fInit (Z.to_nat n) clients tl tr shards) = Some fs →
  written_in (session_reach murmur n only reqsFirst cap accepts encode nS reqsFirst2 nseg recs progs)
    (wholeStep murmur n only reqsFirst cap accepts encode nS reqsFirst2) sortDocs s0 only n (fWorlds fs) ss →
  ans ∈ fAnswers fs → fReqs fs !! faSearch ans = Some (req, t0) →
  plain_request io req → Forall (scores_numbers log2 req) (fWorlds fs) →
  ∃ full out, faResp ans = mkResp (rqTokens req) false (zlen full) (Some out) ∧ page_of req full out ∧
    answers_meanwhile only X stop o (stored_or_given murmur nS decode dbs (mjoin progs)) (one_source murmur nS dbs (mjoin progs))
      (fWorlds fs) t0 (faEnd ans) req full.
Proof.
  intros Hn HnS Hit HX Hv HI Hpl Hz Hr Hm Hvb. exact (meanwhile_lem murmur n only reqsFirst cap Hn accepts encode nS HnS reqsFirst2 iter Hit decode X stop o HX
    sortDocs io s0 nseg recs progs dbs Hv HI Hpl Hz Hr Hm log2 sortBy Hvb ccap clients tl tr shards ls fs ss ans req t0).
Qed.
Print Assumptions C92_documents_of_files_and_calls_are_found.

(** A document that one search has found is found by every later one. *)
Theorem C92_nothing_disappears murmur n only reqsFirst cap accepts encode nS reqsFirst2 iter decode X stop o
    sortDocs io s0 nseg recs progs dbs log2 sortBy ccap clients tl tr shards ls fs ss a1 a2 req t1 t2 :
  1 <= n < 2^32 → 1 <= nS < 2^32 → valid_iter iter → valid_range X → valid_sort sortDocs → Init io = Some s0 →
  placed murmur nS dbs → no_zero nS dbs → recoverProgs iter decode X stop o nS dbs = Some recs →
  made_of X stop o (mjoin progs) → valid_sortBy sortBy →
  frun log2 sortBy (Z.to_nat n) ccap ls (fInit (Z.to_nat n) clients tl tr shards) = Some fs →
  written_in (session_reach murmur n only reqsFirst cap accepts encode nS reqsFirst2 nseg recs progs)
    (wholeStep murmur n only reqsFirst cap accepts encode nS reqsFirst2) sortDocs s0 only n (fWorlds fs) ss →
  a1 ∈ fAnswers fs → fReqs fs !! faSearch a1 = Some (req, t1) →
  a2 ∈ fAnswers fs → fReqs fs !! faSearch a2 = Some (req, t2) → (faEnd a1 <= t2)%nat →
  plain_request io req → Forall (scores_numbers log2 req) (fWorlds fs) →
  ∃ full1 out1 full2 out2,
    faResp a1 = mkResp (rqTokens req) false (zlen full1) (Some out1) ∧ page_of req full1 out1 ∧
    faResp a2 = mkResp (rqTokens req) false (zlen full2) (Some out2) ∧ page_of req full2 out2 ∧
    answers_meanwhile only X stop o (stored_or_given murmur nS decode dbs (mjoin progs)) (one_source murmur nS dbs (mjoin progs))
      (fWorlds fs) t1 (faEnd a1) req full1 ∧
    answers_meanwhile only X stop o (stored_or_given murmur nS decode dbs (mjoin progs)) (one_source murmur nS dbs (mjoin progs))
      (fWorlds fs) t2 (faEnd a2) req full2 ∧
    ∀ id d, stored_or_given murmur nS decode dbs (mjoin progs) id d → one_source murmur nS dbs (mjoin progs) id →
      score_accepts (ScoringCriteria (rqOpts req)) id (ddFields d) →
      id ∈ sdDocId <$> full1 → id ∈ sdDocId <$> full2.
Proof.
  intros Hn HnS Hit HX Hv HI Hpl Hz Hr Hm Hvb. exact (meanwhile_later_lem murmur n only reqsFirst cap Hn accepts encode nS HnS reqsFirst2 iter Hit decode X stop o HX
    sortDocs io s0 nseg recs progs dbs Hv HI Hpl Hz Hr Hm log2 sortBy Hvb ccap clients tl tr shards ls fs ss a1 a2 req t1 t2).
Qed.
Print Assumptions C92_nothing_disappears.

(** If every id has one source and the scoring rejects no document, the number of documents
    found never falls. *)
Theorem C92_count_never_falls murmur n only reqsFirst cap accepts encode nS reqsFirst2 iter decode X stop o
    sortDocs io s0 nseg recs progs dbs log2 sortBy ccap clients tl tr shards ls fs ss a1 a2 req t1 t2 :
  1 <= n < 2^32 → 1 <= nS < 2^32 → valid_iter iter → valid_range X → valid_sort sortDocs → Init io = Some s0 →
  placed murmur nS dbs → no_zero nS dbs → recoverProgs iter decode X stop o nS dbs = Some recs →
  made_of X stop o (mjoin progs) → valid_sortBy sortBy →
  (∀ id d, stored_or_given murmur nS decode dbs (mjoin progs) id d →
     one_source murmur nS dbs (mjoin progs) id ∧ score_accepts (ScoringCriteria (rqOpts req)) id (ddFields d)) →
  frun log2 sortBy (Z.to_nat n) ccap ls (fInit (Z.to_nat n) clients tl tr shards) = Some fs →
  written_in (session_reach murmur n only reqsFirst cap accepts encode nS reqsFirst2 nseg recs progs)
    (wholeStep murmur n only reqsFirst cap accepts encode nS reqsFirst2) sortDocs s0 only n (fWorlds fs) ss →
  a1 ∈ fAnswers fs → fReqs fs !! faSearch a1 = Some (req, t1) →
  a2 ∈ fAnswers fs → fReqs fs !! faSearch a2 = Some (req, t2) → (faEnd a1 <= t2)%nat →
  plain_request io req → Forall (scores_numbers log2 req) (fWorlds fs) →
  rsNumDocs (faResp a1) <= rsNumDocs (faResp a2).
Proof.
  intros Hn HnS Hit HX Hv HI Hpl Hz Hr Hm Hvb. exact (meanwhile_count_lem murmur n only reqsFirst cap Hn accepts encode nS HnS reqsFirst2 iter Hit decode X stop o HX
    sortDocs io s0 nseg recs progs dbs Hv HI Hpl Hz Hr Hm log2 sortBy Hvb ccap clients tl tr shards ls fs ss a1 a2 req t1 t2).
Qed.
Print Assumptions C92_count_never_falls.

(** "a" and "bb" are in the files; after a first Flush a client searches for "dog" three
    times, while another one indexes "ccc". *)
Definition mwDbs : Z → kv := sesDbs true true.
Definition mwProgs : list (list wcall) := [wprogram [[]; [wix "ccc" "Dog" false]]].
Definition mwStart : wstate := sessionInit 2 2 (sesStart true (sesRecs mwDbs)) mwProgs.
Definition mwState (k : nat) : wstate := wRun hashLen 2 true true 2 wOrder k mwStart.
Definition mwStates : list wstate := let s0 := mwState 30 in let s1 := wRun hashLen 2 true true 2 wOrder 5 s0 in
  [s0; s1; wRun hashLen 2 true true 2 wOrder 400 s1].
Definition mwWorlds : list (list Shard) := endShards <$> (pipePart <$> mwStates).
Definition mwInit : fstate :=
  fInit 2 [[lifeReq "dog"; lifeReq "dog"; lifeReq "dog"]] 1 1 (match mwWorlds with w :: _ => w | [] => [] end).
Definition mwWrite (t i : nat) (r : list flabel * fstate) : option (list flabel * fstate) :=
  w ← mwWorlds !! t; sh ← w !! i; s ← exStep 2 (LWrite i sh) (snd r); Some (fst r ++ [LWrite i sh], s).
Definition mwRun : option (list flabel * fstate) :=
  r0 ← exTurns 8 ([], mwInit); r1 ← mwWrite 1 0 r0; r2 ← exTurns 20 r1; r3 ← mwWrite 2 0 r2; exTurns 200 r3.
Lemma mw_files : placed hashLen 2 mwDbs ∧ no_zero 2 mwDbs.
Proof.
  destruct (C89_case true true) as (s0 & _ & HS & _). destruct sesCalls as (_ & _ & G3 & G4 & G5).
  assert (E : all_calls ([sesOne] ++ [sesTwo]) = all_calls [sesOne] ++ wprogram sesTwo) by apply all_calls_app.
  rewrite E in G3, G4, G5.
  destruct (C89_files_hold_all_sessions hashLen 2 false true PropPipe.cap1 accT encB 2 true map_to_list decT exX ∅ noGse 1 [sesOne] mwDbs)
    as (H1 & H2 & _); [done|done|exact iter_ok|exact exX_range|exact codec_ok|exact HS| | | |by split].
  - by apply once_each_app in G3 as [? _].
  - intros doc d fo Hc. eapply G4, elem_of_app. by left.
  - intros id fo Hc. eapply G5, elem_of_app. by left.
Qed.
Lemma mw_recs : recoverProgs map_to_list decT exX ∅ noGse 2 mwDbs = Some (sesRecs mwDbs) ∧
  session_reach hashLen 2 false true PropPipe.cap1 accT encB 2 true 1 (sesRecs mwDbs) mwProgs mwStart.
Proof.
  assert (H : sesOkb true true mwDbs sesTwo = true) by by vm_compute.
  apply sesOk in H as (R & Hrec & Hp & _). split; [exact R|].
  assert (Hl : length (sesRecs mwDbs) = 2%nat) by by vm_compute.
  exists (sesStart true (sesRecs mwDbs)). split; [exact Hp|]. rewrite Hl. split; [exact Hrec|]. apply rtc_refl.
Qed.
Lemma written_three (reach : wstate → Prop) (step : wstate → wstate → Prop) s0 ws a b c : reach a → rtc step a b → rtc step b c →
  Forall2 (λ s, engine_shards stableSort s0 false 2 (pipePart s)) [a; b; c] ws → written_in reach step stableSort s0 false 2 ws [a; b; c].
Proof.
  intros Ha Hb Hc HF. split; [|split; [|exact HF]].
  - intros s [= <-]. exact Ha.
  - intros [|[|[|t]]] s s' E E'; try discriminate E; try discriminate E'; injection E as <-; injection E' as <-; assumption.
Qed.
Lemma worlds_ok s0 ss : Init (optsF 2) = Some s0 → forallb (λ w, Nat.eqb (length w) 2) (endShards <$> (pipePart <$> ss)) = true →
  Forall2 (λ s, engine_shards stableSort s0 false 2 (pipePart s)) ss (endShards <$> (pipePart <$> ss)).
Proof.
  intros HI Hl. induction ss as [|s ss IH]; [constructor|]. cbn [fmap list_fmap forallb] in *.
  apply andb_true_iff in Hl as [Hs%Nat.eqb_eq Hl]. constructor; [by apply endShards_ok|by apply IH].
Qed.
Lemma mw_written s0 : Init (optsF 2) = Some s0 →
  written_in (session_reach hashLen 2 false true PropPipe.cap1 accT encB 2 true 1 (sesRecs mwDbs) mwProgs)
    (wholeStep hashLen 2 false true PropPipe.cap1 accT encB 2 true) stableSort s0 false 2 mwWorlds mwStates.
Proof.
  intros HI. pose proof (worlds_ok s0 mwStates HI ltac:(vm_compute; reflexivity)) as HF. unfold mwWorlds. unfold mwStates in *. cbv zeta in *.
  apply written_three; [|apply wRun_reach|apply wRun_reach|exact HF]. clear HF.
  destruct mw_recs as (_ & p & Hp & Hrec & Hr). exists p. split; [exact Hp|]. split; [exact Hrec|].
  eapply rtc_transitive; [exact Hr|]. apply wRun_reach.
Qed.
Lemma mw_docs : made_of exX ∅ noGse (mjoin mwProgs) ∧
  stored_or_given hashLen 2 decT mwDbs (mjoin mwProgs) "bb" (txt "cat dog") ∧ one_source hashLen 2 mwDbs (mjoin mwProgs) "bb" ∧
  stored_or_given hashLen 2 decT mwDbs (mjoin mwProgs) "ccc" (txt "Dog") ∧ one_source hashLen 2 mwDbs (mjoin mwProgs) "ccc".
Proof.
  split; [|split; [|split; [|split]]].
  - intros doc d fo. unfold mwProgs, wprogram. cbn [fmap list_fmap mjoin list_join app]. rewrite !elem_of_cons, elem_of_nil. unfold wix.
    intros [?|[[= -> -> ->]|[?|[]]]]; try done; by vm_compute.
  - left. exists "cat dog". split; by vm_compute.
  - split; [apply Nat.leb_le; by vm_compute|]. intros _. by vm_compute.
  - right. exists (wdoc "ccc" (txt "Dog")), false. split; [|done]. unfold mwProgs, wprogram. cbn [fmap list_fmap mjoin list_join app].
    apply elem_of_list_further, elem_of_list_here.
  - split; [apply Nat.leb_le; by vm_compute|]. intros [v Hv]. exfalso. assert (E : mwDbs (storeShard hashLen 2 "ccc") !! "ccc" = None) by (vm_compute; reflexivity).
    pose proof (eq_trans (eq_sym E) Hv) as H. discriminate H.
Qed.
Definition mwCheck (r : list flabel * fstate) : bool :=
  bool_decide (seenAnswers (snd r) = [(Some ["bb"], 1, 2%nat); (Some ["bb"; "ccc"], 2, 2%nat); (Some ["bb"; "ccc"], 2, 2%nat)]) &&
  bool_decide (snd <$> fReqs (snd r) = [0; 2; 2]%nat).
Lemma mw_computed : match mwRun with Some r => exRun 2 (fst r) mwInit = Some (snd r) ∧ fWorlds (snd r) = mwWorlds ∧ mwCheck r = true | None => False end.
Proof. vm_compute. repeat split; reflexivity. Qed.
Definition mwSettled (ws : list (list Shard)) : bool :=
  match ws with
  | [w0; _; w2] => existsb (λ sh, has_rk sh "bb") w0 && negb (existsb (λ sh, has_rk sh "ccc") w0) && existsb (λ sh, has_rk sh "ccc") w2
  | _ => false
  end.
Lemma mwSettled_ok ws : mwSettled ws = true → settled ws 0 "bb" ∧ ¬ settled ws 0 "ccc" ∧ settled ws 2 "ccc".
Proof.
  destruct ws as [|w0 [|w1 [|w2 [|]]]]; try discriminate. cbn [mwSettled]. rewrite !andb_true_iff. intros [[S0 S1] S2].
  split; [exact (has_rk_settled [w0; w1; w2] 0 w0 _ eq_refl S0)|]. split; [|exact (has_rk_settled [w0; w1; w2] 2 w2 _ eq_refl S2)].
  intros HS%(has_rk_of [w0; w1; w2] 0 w0 _ eq_refl). rewrite HS in S1. discriminate S1.
Qed.
Lemma mw_settled : mwSettled mwWorlds = true.
Proof. vm_compute. reflexivity. Qed.
Example C92_case : ∃ s0 ls fs, Init (optsF 2) = Some s0 ∧
  exRun 2 ls mwInit = Some fs ∧
  written_in (session_reach hashLen 2 false true PropPipe.cap1 accT encB 2 true 1 (sesRecs mwDbs) mwProgs)
    (wholeStep hashLen 2 false true PropPipe.cap1 accT encB 2 true) stableSort s0 false 2 (fWorlds fs) mwStates ∧
  placed hashLen 2 mwDbs ∧ no_zero 2 mwDbs ∧ recoverProgs map_to_list decT exX ∅ noGse 2 mwDbs = Some (sesRecs mwDbs) ∧
  made_of exX ∅ noGse (mjoin mwProgs) ∧
  stored_or_given hashLen 2 decT mwDbs (mjoin mwProgs) "bb" (txt "cat dog") ∧ one_source hashLen 2 mwDbs (mjoin mwProgs) "bb" ∧
  stored_or_given hashLen 2 decT mwDbs (mjoin mwProgs) "ccc" (txt "Dog") ∧ one_source hashLen 2 mwDbs (mjoin mwProgs) "ccc" ∧
  settled (fWorlds fs) 0 "bb" ∧ ¬ settled (fWorlds fs) 0 "ccc" ∧ settled (fWorlds fs) 2 "ccc" ∧
  snd <$> fReqs fs = [0; 2; 2]%nat ∧
  seenAnswers fs = [(Some ["bb"], 1, 2%nat); (Some ["bb"; "ccc"], 2, 2%nat); (Some ["bb"; "ccc"], 2, 2%nat)].
Proof.
  pose proof mw_computed as H. destruct mwRun as [[ls fs]|]; [|destruct H]. cbn [fst snd] in H. destruct H as (Hr & Hw & Hc).
  destruct (Init (optsF 2)) as [s0|] eqn:HI; [|discriminate HI]. exists s0, ls, fs. unfold mwCheck in Hc. cbn [snd] in Hc.
  rewrite andb_true_iff, !bool_decide_eq_true in Hc. destruct Hc as [Ha Hq]. rewrite Hw.
  split; [reflexivity|]. split; [exact Hr|]. clear Hr Hw. split; [exact (mw_written s0 HI)|].
  split; [exact (proj1 mw_files)|]. split; [exact (proj2 mw_files)|]. split; [exact (proj1 mw_recs)|].
  destruct mw_docs as (D1 & D2 & D3 & D4 & D5). split; [exact D1|]. split; [exact D2|]. split; [exact D3|]. split; [exact D4|]. split; [exact D5|].
  destruct (mwSettled_ok _ mw_settled) as (S0 & S1 & S2). split; [exact S0|]. split; [exact S1|]. split; [exact S2|]. split; [exact Hq|exact Ha].
Qed.
