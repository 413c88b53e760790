(** Theorems about search over several shards (engine.go Search, Ranks, RankID;
    ranker_worker.go rankerRank; indexer_worker.go indexerLookup; riot.go HasDoc). *)
From Verif Require Import ModelEngine SpecIndexer SpecRank SpecEngine ProofScore ProofRanker ProofEngine ProofSortBy
  ProofIxThms ExampleTools PropRanker.

(** * Example data: three shards, the last one empty. *)
Definition exShard (o : IndexerOpts) (ops : list op) (rops : list rop) : option Shard :=
  match st o ops, rrun rops (RankerInit [false]) with
  | Some s, Some r => Some (mkShard s r)
  | _, _ => None
  end.
Definition rk (id : string) (n : Z) : rop := ROAdd id (IOther n) [IStr "text"; INil].
Definition exCalls : list (list op * list rop) :=
  [([OpAdd (Some docA) true; OpAdd (Some docB) true; OpAdd (Some docC) true], [rk "a" 1; rk "b" 4]);
   ([OpAdd (Some (mkDoc "d" (f32_of_Z 1) [kw "x" [7]])) true; OpAdd (Some (mkDoc "e" (f32_of_Z 1) [kw "x" [1]])) true],
    [rk "d" 3; rk "e" 2]);
   ([], [])].
Definition exShards : option (list Shard) := mapM (λ p, exShard (optsF 2) p.1 p.2) exCalls.
Definition numScore (d : IndexedDoc) (f : Iface) : list F :=
  match f with
  | IOther 1 => [one]
  | IOther _ => [two]
  | _ => []
  end.
Lemma numScore_num : ∀ d f, nan_free (numScore d f).
Proof.
  intros d [|s|n]; [constructor|constructor|]. cbn. destruct n as [|[]|]; by repeat constructor.
Qed.
Definition exReq (off lim : Z) (count : bool) (timeout : Z) : SearchReq :=
  mkReq ["x"] [] noLogic None (mkRankOpts numScore false off lim) timeout count false.
Definition exDocs (sh : Shard) : list IndexedDoc :=
  match Lookup (λ x, x) (shIx sh) ["x"] [] None false (Some noLogic) with Some (d, _) => d | None => [] end.
Definition exParts : list (list rop * list IndexedDoc) :=
  match exShards with Some shs => zip (snd <$> exCalls) (exDocs <$> shs) | None => [] end.
Definition looksUp (sh : Shard) : bool :=
  match Lookup (λ x, x) (shIx sh) ["x"] [] None false (Some noLogic) with Some _ => true | None => false end.
Lemma views_gen off lim count timeout : ∀ cs shs,
  Forall (λ p, Forall (engine_call false) p.2) cs →
  mapM (λ p, exShard (optsF 2) p.1 p.2) cs = Some shs → forallb looksUp shs = true →
  Forall2 (shard_view (λ x, x) false (exReq off lim count timeout)) shs (zip (snd <$> cs) (exDocs <$> shs)).
Proof.
  induction cs as [|p cs IH]; intros shs Hc Hm Hl; apply mapM_Some in Hm.
  - inversion Hm. constructor.
  - inversion Hm as [|? sh ? shs' Hsh Hrest]; subst. apply Forall_cons in Hc as [Hp Hc].
    cbn in Hl. apply andb_true_iff in Hl as [Hl1 Hl2]. rewrite !fmap_cons. cbn [zip zip_with].
    constructor; [|apply IH; [done|by apply mapM_Some|done]].
    split; [done|]. split.
    + cbn [fst snd]. unfold exShard in Hsh. destruct (st (optsF 2) p.1) as [s|]; [|done].
      destruct (rrun p.2 (RankerInit [false])) as [r|]; [|done]. by injection Hsh as <-.
    + cbn [fst snd exReq rqTokens rqLabels rqDocIds rqLogic]. unfold exDocs. unfold looksUp in Hl1. destruct (Lookup _ _ _ _ _ _ _) as [[docs n]|]; [by exists n|done].
Qed.
Lemma ex_views off lim count timeout : ∃ shs, exShards = Some shs ∧ length shs = 3%nat ∧
  Forall2 (shard_view (λ x, x) false (exReq off lim count timeout)) shs exParts ∧
  Exists (λ p, p.2 ≠ []) exParts.
Proof.
  assert (H : match exShards with
    | Some shs => Nat.eqb (length shs) 3 && forallb looksUp shs && existsb (λ p, negb (zlen p.2 =? 0)) exParts
    | None => false end = true) by by vm_compute.
  destruct exShards as [shs|] eqn:E; [|done]. apply andb_true_iff in H as [H H3].
  apply andb_true_iff in H as [H1 H2]. exists shs. split; [done|]. split; [by apply Nat.eqb_eq|]. split.
  - unfold exParts. rewrite E. apply views_gen; [|done|done].
    repeat constructor; by eexists _, _.
  - apply existsb_exists in H3 as (p & Hp & H3). apply Exists_exists. exists p.
    split; [by apply elem_of_list_In|]. intros Hz. by rewrite Hz in H3.
Qed.
Definition exSearch (off lim : Z) (count : bool) (timeout : Z) (order : list (option nat))
    : option (option (list string) * Z * bool) :=
  match exShards with
  | Some shs =>
    match Search (λ x, x) insSortBy (exReq off lim count timeout) shs order with
    | Some r => Some (fmap (M:=list) sdDocId <$> rsDocs r, rsNumDocs r, rsTimeout r)
    | None => None
    end
  | None => None
  end.

(** * C32, and C33 for ranked searches *)
Theorem C32_sharded_search log2 sortBy only req shards parts order : valid_sortBy sortBy →
  no_nan (all_hits only (ScoringCriteria (rqOpts req)) parts) →
  Forall2 (shard_view log2 only req) shards parts → ranked req → rqTimeout req <= 0 →
  0 <= OutputOffset (rqOpts req) → 0 <= MaxOutputs (rqOpts req) →
  OutputOffset (rqOpts req) + MaxOutputs (rqOpts req) < 2^63 →
  all_arrive (length shards) order →
  ∃ full out,
    full ≡ₚ all_hits only (ScoringCriteria (rqOpts req)) parts ∧
    in_order (ReverseOrder (rqOpts req)) full ∧
    Search log2 sortBy req shards order = Some (mkResp (rqTokens req) false (zlen full) (Some out)) ∧
    Forall2 same_scores out (page (OutputOffset (rqOpts req)) (MaxOutputs (rqOpts req)) full) ∧
    out ⊆+ full.
Proof. exact (C32_lem log2 sortBy only req shards parts order). Qed.
Print Assumptions C32_sharded_search.

(** Four scorable hits in two shards ("c" is not known to its ranker); answers arrive
    in the order 2, 0, 1; page [1, 3). *)
Example C32_case : valid_sortBy (@insSortBy ScoredDoc) ∧ no_nan (all_hits false numScore exParts) ∧
  all_arrive 3 [Some 2%nat; Some 0%nat; Some 1%nat] ∧
  (∃ shs, exShards = Some shs ∧ length shs = 3%nat ∧
     Forall2 (shard_view (λ x, x) false (exReq 1 2 false 0)) shs exParts) ∧
  exSearch 0 0 false 0 [Some 2%nat; Some 0%nat; Some 1%nat] = Some (Some ["e"; "d"; "b"; "a"], 4, false) ∧
  exSearch 1 2 false 0 [Some 2%nat; Some 0%nat; Some 1%nat] = Some (Some ["d"; "b"], 4, false).
Proof.
  split; [exact insSortBy_valid|]. split; [apply all_hits_no_nan, numScore_num|]. split.
  { unfold all_arrive. cbn. etransitivity; [apply Permutation_swap|]. constructor. apply Permutation_swap. }
  split; [|by vm_compute].
  destruct (ex_views 1 2 false 0) as (shs & H1 & H2 & H3 & _). by exists shs.
Qed.

(** * C33 *)
Theorem C33_ranked_total log2 sortBy only req shards parts order : valid_sortBy sortBy →
  no_nan (all_hits only (ScoringCriteria (rqOpts req)) parts) →
  Forall2 (shard_view log2 only req) shards parts → ranked req → rqTimeout req <= 0 →
  0 <= OutputOffset (rqOpts req) → 0 <= MaxOutputs (rqOpts req) →
  OutputOffset (rqOpts req) + MaxOutputs (rqOpts req) < 2^63 →
  all_arrive (length shards) order →
  rsNumDocs <$> Search log2 sortBy req shards order =
    Some (zlen (all_hits only (ScoringCriteria (rqOpts req)) parts)).
Proof. exact (C33_ranked_lem log2 sortBy only req shards parts order). Qed.
Print Assumptions C33_ranked_total.

Theorem C33_count_only_total log2 sortBy only req shards parts order score :
  Forall2 (shard_view log2 only req) shards parts → rqCountOnly req = true → rqTimeout req <= 0 →
  all_arrive (length shards) order →
  ∃ n, Search log2 sortBy req shards order = Some (mkResp (rqTokens req) false n None) ∧
    n = zlen (all_hits only score parts) + zlen (mjoin (dropped only score <$> parts)).
Proof. exact (C33_lem log2 sortBy only req shards parts order score). Qed.
Print Assumptions C33_count_only_total.

(** An orderless search returns every match of every shard, also those the ranker does
    not know, whatever offset and limit say, and their number. *)
Theorem C33_orderless_returns_all log2 sortBy only req shards parts order :
  Forall2 (shard_view log2 only req) shards parts → rqCountOnly req = false → rqOrderless req = true →
  rqTimeout req <= 0 → all_arrive (length shards) order →
  ∃ docs, Search log2 sortBy req shards order =
      Some (mkResp (rqTokens req) false (zlen (mjoin (snd <$> parts))) (Some docs)) ∧
    docs ≡ₚ (λ d, mkScored (ixDocId d) [] (TokenSnippetLocs d) (TokenLocs d) "" INil INil) <$> mjoin (snd <$> parts).
Proof. exact (orderless_lem log2 sortBy only req shards parts order). Qed.
Print Assumptions C33_orderless_returns_all.
Example C33_orderless_case :
  match exShards with
  | Some shs =>
    match Search (λ x, x) insSortBy (mkReq ["x"] [] noLogic None (mkRankOpts numScore false 1 1) 0 false true) shs
            [Some 1%nat; Some 2%nat; Some 0%nat] with
    | Some r => Some (fmap (M:=list) sdDocId <$> rsDocs r, rsNumDocs r)
    | None => None
    end
  | None => None
  end = Some (Some ["e"; "d"; "c"; "b"; "a"], 5).
Proof. by vm_compute. Qed.

(** "c" counts as a match but is not ranked. *)
Example C33_case : exSearch 0 0 true 0 [Some 1%nat; Some 0%nat; Some 2%nat] = Some (None, 5, false) ∧
  zlen (all_hits false numScore exParts) = 4 ∧ zlen (mjoin (dropped false numScore <$> exParts)) = 1.
Proof. by vm_compute. Qed.

(** * C34 *)
Theorem C34_timeout_loses_whole_shards log2 sortBy req shards order resp :
  schedule (length shards) order → 0 < rqTimeout req →
  Search log2 sortBy req shards order = Some resp →
  let answered := omap (λ i, shards !! i) (omap id order) in
  Search log2 sortBy (untimed req) answered (Some <$> seq 0 (length answered)) = Some (no_flag resp) ∧
  (rsTimeout resp = true ↔ None ∈ order) ∧
  (rsTimeout resp = false → all_arrive (length shards) order).
Proof. exact (C34_lem log2 sortBy req shards order resp). Qed.
Print Assumptions C34_timeout_loses_whole_shards.

(** In every state of the reply channel a shard that has not answered can send. *)
Theorem C34_answers_never_block n s : rtc (chanStep n) (chanInit n) s → chPending s ≠ [] →
  (length (chBuffer s) < n)%nat.
Proof. exact (chan_lem n s). Qed.
Print Assumptions C34_answers_never_block.

Example C34_case : schedule 3 [Some 1%nat; None; None] ∧
  exSearch 0 0 false 5 [Some 1%nat; None; None] = Some (Some ["e"; "d"], 2, true) ∧
  exSearch 0 0 false 5 [Some 1%nat; Some 0%nat; Some 2%nat] = Some (Some ["b"; "e"; "d"; "a"], 4, false).
Proof. split; [|by vm_compute]. split; [done|]. split; repeat constructor. apply not_elem_of_nil. Qed.
Example C34_channel_case : rtc (chanStep 2) (chanInit 2) (mkChan [0%nat] [1%nat]).
Proof. apply rtc_once. apply (chan_send 2 [0%nat] 1 [] []). cbn. lia. Qed.

(** * C30, engine *)
Theorem C30_engine_paging_crashes log2 sortBy only req shards parts order : valid_sortBy sortBy →
  Forall2 (shard_view log2 only req) shards parts → ranked req → rqTimeout req <= 0 →
  all_arrive (length shards) order →
  - 2^63 <= OutputOffset (rqOpts req) < 2^63 → - 2^63 <= MaxOutputs (rqOpts req) < 2^63 →
  Search log2 sortBy req shards order = None ↔
  OutputOffset (rqOpts req) < 0 ∨ MaxOutputs (rqOpts req) < 0 ∨
  (2^63 <= OutputOffset (rqOpts req) + MaxOutputs (rqOpts req) ∧ Exists (λ p, p.2 ≠ []) parts).
Proof. exact (C30_engine_lem log2 sortBy only req shards parts order). Qed.
Print Assumptions C30_engine_paging_crashes.

Example C30_engine_case :
  (∃ shs, exShards = Some shs ∧ Forall2 (shard_view (λ x, x) false (exReq 1 (2^63 - 1) false 0)) shs exParts ∧
     Exists (λ p, p.2 ≠ []) exParts) ∧
  exSearch 1 (2^63 - 1) false 0 [Some 2%nat; Some 0%nat; Some 1%nat] = None ∧
  exSearch 0 (2^63 - 1) false 0 [Some 2%nat; Some 0%nat; Some 1%nat] = Some (Some ["e"; "d"; "b"; "a"], 4, false) ∧
  exSearch 0 (-1) false 0 [Some 2%nat; Some 0%nat; Some 1%nat] = None.
Proof.
  split; [|by vm_compute]. destruct (ex_views 1 (2^63 - 1) false 0) as (shs & H1 & H2 & H3 & H4). by exists shs.
Qed.

(** * C35 *)
Theorem C35_shard_in_range numShards hash : 1 <= numShards < 2^32 → 0 <= hash < 2^32 →
  getShard numShards hash = hash `mod` numShards ∧ 0 <= getShard numShards hash < numShards.
Proof. exact (C35_lem numShards hash). Qed.
Print Assumptions C35_shard_in_range.

Example C35_case : getShard 7 (2^32 - 1) = 3 ∧ getShard (2^32 - 1) (2^32 - 2) = 2^32 - 2.
Proof. by vm_compute. Qed.

(** * C44 *)
Theorem C44_HasDoc_asks_the_shards shards ids : ∀ extra,
  ∃ extra', hasDocCalls (length shards) ids (shards ++ extra) =
    Some ((λ id, existsb (λ ix, HasDoc ix id) shards) <$> ids, shards ++ extra').
Proof. exact (C44_lem shards ids). Qed.
Print Assumptions C44_HasDoc_asks_the_shards.

Example C44_case :
  match exShards with
  | Some shs => match hasDocCalls 3 ["d"; "q"; "c"] (shIx <$> shs) with Some (bs, ixs) => Some (bs, length ixs) | None => None end
  | None => None
  end = Some ([true; false; true], 9%nat).
Proof. by vm_compute. Qed.
