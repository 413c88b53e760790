(** Theorems about a process that keeps running. *)
From Verif Require Import ModelSession ModelEngine ModelFlight SpecIndexer SpecSearch SpecRank SpecRoute SpecPipe SpecSegment SpecEngine SpecFlight
  SpecStore SpecEnd SpecLife SpecClose SpecWhole SpecSession SpecDuring SpecSessionDuring SpecSurvive ProofIxThms ProofSortBy ProofFlushThms ProofSessionThms
  ProofSessionDuring ProofSurvive ExampleTools PropPipe PropEngine PropEnd PropFlight PropStore PropSegment PropLife PropWhole PropSession PropDuring PropSessionDuring.

(** * C93: no panic in a session *)
(** No indexer and no ranker panics, under any schedule of any number of writing clients,
    if no id is indexed twice. *)
Theorem C93_no_shard_panics murmur n only reqsFirst cap accepts encode nS reqsFirst2 iter decode X stop o
    sortDocs io s0 nseg recs progs dbs s :
  1 <= n < 2^32 → 1 <= nS < 2^32 → valid_iter iter → valid_range X → valid_sort sortDocs → Init io = Some s0 →
  placed murmur nS dbs → no_zero nS dbs → recoverProgs iter decode X stop o nS dbs = Some recs →
  made_of X stop o (mjoin progs) → indexed_once murmur nS dbs (mjoin progs) →
  session_reach murmur n only reqsFirst cap accepts encode nS reqsFirst2 nseg recs progs s →
  ∃ shards, engine_shards sortDocs s0 only n (pipePart s) shards.
Proof.
  intros Hn HnS Hit HX Hv HI Hpl Hz Hr Hm. exact (session_shards murmur n only reqsFirst cap Hn accepts encode nS HnS reqsFirst2 iter Hit decode X stop o HX
    sortDocs io s0 nseg recs progs dbs Hv HI Hpl Hz Hr Hm s).
Qed.
Print Assumptions C93_no_shard_panics.

(** No search panics meanwhile, whatever the schedule and the times at which the deadlines
    of the requests pass. *)
Theorem C93_no_search_panics murmur n only reqsFirst cap accepts encode nS reqsFirst2 iter decode X stop o
    sortDocs io s0 nseg recs progs dbs log2 sortBy ccap clients tl tr shards ls fs ss :
  1 <= n < 2^32 → 1 <= nS < 2^32 → valid_iter iter → valid_range X → valid_sort sortDocs → Init io = Some s0 →
  placed murmur nS dbs → no_zero nS dbs → recoverProgs iter decode X stop o nS dbs = Some recs →
  made_of X stop o (mjoin progs) → (∀ req, req ∈ mjoin clients → harmless io req) →
  frun log2 sortBy (Z.to_nat n) ccap ls (fInit (Z.to_nat n) clients tl tr shards) = Some fs →
  written_in (session_reach murmur n only reqsFirst cap accepts encode nS reqsFirst2 nseg recs progs)
    (wholeStep murmur n only reqsFirst cap accepts encode nS reqsFirst2) sortDocs s0 only n (fWorlds fs) ss →
  fCrash fs = false.
Proof.
  intros Hn HnS Hit HX Hv HI Hpl Hz Hr Hm Hq. exact (session_survives murmur n only reqsFirst cap Hn accepts encode nS HnS reqsFirst2 iter Hit decode X stop o HX
    sortDocs io s0 nseg recs progs dbs Hv HI Hpl Hz Hr Hm log2 sortBy ccap clients tl tr shards Hq ls fs ss).
Qed.
Print Assumptions C93_no_search_panics.

(** And every search returns if every goroutine gets its turns. *)
Theorem C93_every_search_returns murmur n only reqsFirst cap accepts encode nS reqsFirst2 iter decode X stop o
    sortDocs io s0 nseg recs progs dbs log2 sortBy ccap clients tl tr shards ls :
  1 <= n < 2^32 → 1 <= nS < 2^32 → valid_iter iter → valid_range X → valid_sort sortDocs → Init io = Some s0 →
  placed murmur nS dbs → no_zero nS dbs → recoverProgs iter decode X stop o nS dbs = Some recs →
  made_of X stop o (mjoin progs) → (∀ req, req ∈ mjoin clients → harmless io req) →
  (∀ ch, (0 < ccap ch)%nat) → (0 < tl)%nat → (0 < tr)%nat →
  (∀ j, ∃ ss, written_in (session_reach murmur n only reqsFirst cap accepts encode nS reqsFirst2 nseg recs progs)
     (wholeStep murmur n only reqsFirst cap accepts encode nS reqsFirst2) sortDocs s0 only n
     (fWorlds (fafter (fstep log2 sortBy (Z.to_nat n) ccap) ls (fInit (Z.to_nat n) clients tl tr shards) j)) ss) →
  ffair (length (fProcs (fInit (Z.to_nat n) clients tl tr shards))) ls →
  ∃ i, ∀ j, (i <= j)%nat →
    all_answered clients (fafter (fstep log2 sortBy (Z.to_nat n) ccap) ls (fInit (Z.to_nat n) clients tl tr shards) j).
Proof.
  intros Hn HnS Hit HX Hv HI Hpl Hz Hr Hm Hq. exact (session_returns murmur n only reqsFirst cap Hn accepts encode nS HnS reqsFirst2 iter Hit decode X stop o HX
    sortDocs io s0 nseg recs progs dbs Hv HI Hpl Hz Hr Hm log2 sortBy ccap clients tl tr shards Hq ls).
Qed.
Print Assumptions C93_every_search_returns.

(** The execution of C92, continued for ever. *)
Definition thenRobin (N : nat) (labels : list flabel) (j : nat) : flabel :=
  match labels !! j with Some l => l | None => LProc (j mod N) false end.
Lemma thenRobin_fair N labels : ffair N (thenRobin N labels).
Proof.
  intros k Hk i. exists (k + (i + length labels) * N)%nat, false. split; [nia|]. unfold thenRobin.
  rewrite (proj2 (lookup_ge_None labels _)) by nia. rewrite Nat.mod_add by lia. by rewrite Nat.mod_small.
Qed.
Lemma fafter_run n labels s s' : exRun n labels s = Some s' → ∀ ls : nat → flabel, (∀ j l, labels !! j = Some l → ls j = l) →
  fafter (exStep n) ls s (length labels) = s' ∧
  ∀ j, (j <= length labels)%nat → exRun n (take j labels) s = Some (fafter (exStep n) ls s j).
Proof.
  intros Hr ls Hls. assert (H : ∀ j, (j <= length labels)%nat → exRun n (take j labels) s = Some (fafter (exStep n) ls s j)).
  { induction j as [|j IH]; intros Hj; [done|]. destruct (lookup_lt_is_Some_2 labels j) as [l Hl]; [lia|].
    assert (Hsn : ∀ (l1 : list flabel) (x : flabel) (a : fstate), exRun n (l1 ++ [x]) a = b ← exRun n l1 a; exStep n x b).
    { clear. induction l1 as [|y l1 IH]; intros x a; cbn [frun app].
      - cbn. destruct (exStep n x a); done.
      - destruct (exStep n y a); [|done]. cbn. apply IH. }
    assert (Hne : is_Some (exRun n (take (S j) labels) s)).
    { assert (Hap : ∀ (l1 l2 : list flabel) (a : fstate), exRun n (l1 ++ l2) a = b ← exRun n l1 a; exRun n l2 b).
      { clear. induction l1 as [|y l1 IH]; intros l2 a; [done|]. cbn [frun app]. destruct (exStep n y a); [|done]. cbn. apply IH. }
      rewrite <-(take_drop (S j) labels), Hap in Hr. destruct (exRun n (take (S j) labels) s); [by eexists|done]. }
    rewrite (take_S_r _ _ _ Hl), Hsn, IH in * by lia. cbn [mbind option_bind] in *. destruct Hne as [x Hx]. cbn [fafter].
    unfold fturn. rewrite (Hls j l Hl), Hx. done. }
  split; [|exact H]. specialize (H (length labels)). rewrite take_ge in H by lia. rewrite Hr in H. by injection H as <-.
Qed.
Lemma worlds_prefix n N labels s s' : exRun n labels s = Some s' → ∀ j, ∃ ws, fWorlds s' = fWorlds (fafter (exStep n) (thenRobin N labels) s j) ++ ws.
Proof.
  intros Hr j. destruct (fafter_run n labels s s' Hr (thenRobin N labels)) as [HE HT]. { intros k l Hk. unfold thenRobin. by rewrite Hk. }
  destruct (decide (j <= length labels)%nat) as [Hj|Hj].
  - specialize (HT j Hj). rewrite <-(take_drop j labels) in Hr.
    assert (Hap : ∀ (l1 l2 : list flabel) (a : fstate), exRun n (l1 ++ l2) a = b ← exRun n l1 a; exRun n l2 b).
    { clear. induction l1 as [|y l1 IH]; intros l2 a; [done|]. cbn [frun app]. destruct (exStep n y a); [|done]. cbn. apply IH. }
    rewrite Hap, HT in Hr. cbn in Hr. by eapply worlds_run.
  - assert (HW : ∀ k, fWorlds (fafter (exStep n) (thenRobin N labels) s (k + length labels)) = fWorlds s').
    { induction k as [|k IH]; [cbn [Nat.add]; by rewrite HE|]. cbn [Nat.add fafter]. rewrite <-IH. generalize (fafter (exStep n) (thenRobin N labels) s (k + length labels)). intros a.
      unfold thenRobin. rewrite (proj2 (lookup_ge_None labels _)) by lia. unfold fturn, fstep. destruct (fCrash a); [done|].
      destruct (fProcs a !! _) as [p|]; [|done]. cbn. by destruct (fproc _ _ _ _ _ _ _) as [[]|]. }
    exists []. rewrite app_nil_r. replace j with ((j - length labels) + length labels)%nat by lia. by rewrite HW.
Qed.
Lemma written_prefix reach step sortDocs s0 only n ws ws' ss : written_in reach step sortDocs s0 only n (ws ++ ws') ss →
  written_in reach step sortDocs s0 only n ws (take (length ws) ss).
Proof.
  intros (H1 & H2 & H3). split; [|split].
  - intros s Hs. apply H1. rewrite lookup_take_Some in Hs. by destruct Hs.
  - intros t s s' Hs Hs'. rewrite lookup_take_Some in Hs, Hs'. destruct Hs, Hs'. by eapply H2.
  - apply Forall2_app_inv_r in H3 as (l1 & l2 & HF & _ & ->). pose proof (Forall2_length _ _ _ HF) as Hl. rewrite <-Hl, take_app. exact HF.
Qed.
Lemma mw_once : indexed_once hashLen 2 mwDbs (mjoin mwProgs).
Proof.
  split; [apply (bool_decide_unpack _); vm_compute; exact I|]. intros id. change (omap indexed_id (mjoin mwProgs)) with ["ccc"]. intros ->%elem_of_list_singleton.
  vm_compute. reflexivity.
Qed.
Lemma mw_harmless req : req ∈ mjoin [[lifeReq "dog"; lifeReq "dog"; lifeReq "dog"]] → harmless (optsF 2) req.
Proof.
  intros H. assert (req = lifeReq "dog") as ->. { cbn in H. rewrite !elem_of_cons, elem_of_nil in H. tauto. }
  split; [unfold paging_ok; cbn; lia|]. split; [discriminate|discriminate].
Qed.
Example C93_case : ∃ s0 ls fs, Init (optsF 2) = Some s0 ∧ indexed_once hashLen 2 mwDbs (mjoin mwProgs) ∧
  made_of exX ∅ noGse (mjoin mwProgs) ∧
  (∀ s, s ∈ mwStates → session_reach hashLen 2 false true PropPipe.cap1 accT encB 2 true 1 (sesRecs mwDbs) mwProgs s) ∧
  (∀ req, req ∈ mjoin [[lifeReq "dog"; lifeReq "dog"; lifeReq "dog"]] → harmless (optsF 2) req) ∧
  exRun 2 ls mwInit = Some fs ∧
  written_in (session_reach hashLen 2 false true PropPipe.cap1 accT encB 2 true 1 (sesRecs mwDbs) mwProgs)
    (wholeStep hashLen 2 false true PropPipe.cap1 accT encB 2 true) stableSort s0 false 2 (fWorlds fs) mwStates ∧
  length (fWorlds fs) = 3%nat ∧
  (∀ j, ∃ ss, written_in (session_reach hashLen 2 false true PropPipe.cap1 accT encB 2 true 1 (sesRecs mwDbs) mwProgs)
     (wholeStep hashLen 2 false true PropPipe.cap1 accT encB 2 true) stableSort s0 false 2
     (fWorlds (fafter (exStep 2) (thenRobin 5 ls) mwInit j)) ss) ∧
  ffair (length (fProcs mwInit)) (thenRobin 5 ls).
Proof.
  destruct C92_case as (s0 & ls & fs & HI & Hr & HW & _ & _ & _ & HM & _). exists s0, ls, fs. split; [exact HI|]. split; [exact mw_once|]. split; [exact HM|].
  split.
  { destruct HW as (W1 & W2 & _). revert W1 W2. generalize mwStates. intros ss W1 W2 s [t Ht]%elem_of_list_lookup. revert s Ht.
    induction t as [|t IH]; intros s Hs; [by apply W1|].
    assert (is_Some (ss !! t)) as [s' Hs']. { apply lookup_lt_is_Some. apply lookup_lt_Some in Hs. lia. }
    destruct (IH s' Hs') as (p & Hp & Hrc & Hrt). exists p. split; [exact Hp|]. split; [exact Hrc|]. eapply rtc_transitive; [exact Hrt|]. exact (W2 _ _ _ Hs' Hs). }
  split; [exact mw_harmless|]. split; [exact Hr|]. split; [exact HW|]. split.
  { destruct HW as (_ & _ & HF). apply Forall2_length in HF. rewrite <-HF. vm_compute. reflexivity. }
  split; [|exact (thenRobin_fair 5 ls)].
  intros j. destruct (worlds_prefix 2 5 ls mwInit fs Hr j) as [ws Ew]. rewrite Ew in HW. eexists. exact (written_prefix _ _ _ _ _ _ _ _ _ HW).
Qed.
