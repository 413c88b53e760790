(** Proofs about the servers. *)
From Verif Require Import ModelNet SpecRank SpecEngine ProofRanker ProofEngine SpecNet ProofTable.

(** * The order by time *)
Lemma textLess_newer x y : textLess x y = true ↔ newer x y.
Proof.
  unfold textLess, newer. destruct (Z.eqb_spec (atTs (txAttri x)) (atTs (txAttri y))) as [E|E].
  - rewrite sltb_true. split; [intros H; right; by split|intros [H|[_ H]]; [lia|done]].
  - rewrite Z.gtb_lt. split; [intros H; left; lia|intros [H|[H _]]; [lia|done]].
Qed.
Lemma textLess_not x y : textLess x y = false ↔ ¬ newer x y.
Proof. rewrite <- textLess_newer. destruct (textLess x y); split; congruence. Qed.

Lemma newer_trans x y z : newer x y → newer y z → newer x z.
Proof.
  intros [H1|[H1 H1']] [H2|[H2 H2']]; unfold newer; [left; lia|left; lia|left; lia|right].
  split; [lia|]. by etrans.
Qed.
Lemma newer_irrefl x : ¬ newer x x.
Proof. intros [H|[_ H]]; [lia|]. by apply (irreflexivity slt) in H. Qed.
Lemma newer_total x y : newer x y ∨ newer y x ∨ (atTs (txAttri x) = atTs (txAttri y) ∧ txId x = txId y).
Proof.
  unfold newer. destruct (Z.lt_trichotomy (atTs (txAttri x)) (atTs (txAttri y))) as [H|[H|H]]; [tauto| |tauto].
  destruct (slt_trich (txId x) (txId y)) as [Hs|[Hs|Hs]]; [right; left; right; split; [done|done]|tauto|left; right; by split].
Qed.
Lemma newer_same x y z : atTs (txAttri x) = atTs (txAttri y) → txId x = txId y → (newer x z ↔ newer y z) ∧ (newer z x ↔ newer z y).
Proof. intros H1 H2. unfold newer. by rewrite H1, H2. Qed.

Lemma text_swo l : strict_weak_on textLess l.
Proof.
  split; [|split].
  - intros x _. apply textLess_not, newer_irrefl.
  - intros x y z _ _ _. rewrite !textLess_newer. apply newer_trans.
  - intros x y z _ _ _. rewrite !textLess_not. intros H1 H2 H3 H4.
    destruct (newer_total x y) as [?|[?|[E1 E2]]]; [done|done|].
    destruct (newer_same x y z E1 E2) as [A B]. by rewrite A, B.
Qed.

Lemma sortTexts_ok sortTexts l : valid_sortBy sortTexts →
  sortTexts textLess l ≡ₚ l ∧ newest_first (sortTexts textLess l).
Proof.
  intros Hv. destruct (Hv textLess l) as [H1 H2]. split; [done|].
  specialize (H2 (text_swo l)). unfold newest_first. clear H1. revert H2. generalize (sortTexts textLess l).
  induction 1 as [|x l' Hs IH Hf]; [constructor|]. constructor; [done|].
  eapply Forall_impl; [done|]. intros y. by rewrite textLess_not.
Qed.

(** * C53: merging *)
Lemma merge_lem sortTexts max replies : valid_sortBy sortTexts → length replies ≠ 1%nat →
  ∃ all, all ≡ₚ mjoin replies ∧ newest_first all ∧
    (zlen (mjoin replies) <= max → distMerge sortTexts max replies = Some all) ∧
    (1 <= max < zlen (mjoin replies) →
       distMerge sortTexts max replies = Some (take (Z.to_nat (max - 1)) all)) ∧
    (max < zlen (mjoin replies) → max <= 0 → distMerge sortTexts max replies = None).
Proof.
  intros Hv Hn. exists (sortTexts textLess (mjoin replies)).
  destruct (sortTexts_ok sortTexts (mjoin replies) Hv) as [H1 H2]. split; [done|]. split; [done|].
  assert (Hl : zlen (sortTexts textLess (mjoin replies)) = zlen (mjoin replies)).
  { unfold zlen. by rewrite (Permutation_length H1). }
  assert (E : distMerge sortTexts max replies =
    let docs := sortTexts textLess (mjoin replies) in
    if zlen docs >? max then zslice docs 0 (max - 1) else Some docs).
  { unfold distMerge. destruct replies as [|r [|r' l]]; done. }
  rewrite E. cbn zeta. rewrite Hl.
  destruct (Z.gtb_spec (zlen (mjoin replies)) max) as [Hgt|Hle].
  - split; [lia|]. split.
    + intros Hm. rewrite zslice_ok by lia. by rewrite Z.sub_0_r.
    + intros _ Hm. apply zslice_None. lia.
  - split; [done|]. split; lia.
Qed.

Lemma one_host sortTexts max r : distMerge sortTexts max [r] = Some r.
Proof. done. Qed.

Lemma first_lem sortTexts com (hosts : Z → Z → list (list Text)) reqs off : valid_sortBy sortTexts →
  (1 < length (hosts 0%Z 0%Z))%nat → mjoin (hosts 0 0) ≠ [] →
  wgDistRun sortTexts com zeroConf hosts ((off, 0) :: reqs) =
    None :: wgDistRun sortTexts com com hosts reqs.
Proof.
  intros Hv Hl Hne. cbn. f_equal.
  destruct (merge_lem sortTexts 0 (hosts 0 0) Hv ltac:(lia)) as (all & _ & _ & _ & _ & H).
  apply H; [|lia]. destruct (mjoin (hosts 0 0)); [done|]. rewrite zlen_cons. pose proof (zlen_nonneg l). lia.
Qed.

Lemma dist_later sortTexts com pkg hosts reqs1 off max off' max' : in_force com off max off' max' → reqs1 ≠ [] →
  wgDistRun sortTexts com pkg hosts (reqs1 ++ [(off, max)]) !! length reqs1 =
    Some (distMerge sortTexts max' (hosts off' max')).
Proof.
  intros Hf Hne.
  assert (P : pageOf com off max = (off', max')).
  { unfold pageOf. destruct Hf as [(-> & -> & ->)|(Hm & -> & ->)]; [done|].
    by destruct (Z.eqb_spec max 0). }
  assert (G : ∀ reqs, wgDistRun sortTexts com com hosts (reqs ++ [(off, max)]) !! length reqs =
    Some (distMerge sortTexts max' (hosts off' max'))).
  { induction reqs as [|[o m] reqs IH]; cbn.
    - unfold wgDist. by rewrite P.
    - unfold wgDist. destruct (pageOf com o m). cbn. apply IH. }
  destruct reqs1 as [|[o m] reqs]; [done|]. cbn. unfold wgDist. destruct (pageOf pkg o m). cbn. apply G.
Qed.

Lemma offset_lem sortTexts (docs : list (list Text)) off max : valid_sortBy sortTexts → 0 < max →
  Forall (λ l, zlen l <= off) docs → distMerge sortTexts max (page off max <$> docs) = Some [].
Proof.
  intros Hv Hm Hf. assert (E : ∀ l, l ∈ docs → page off max l = []).
  { intros l Hl. rewrite Forall_forall in Hf. specialize (Hf l Hl). unfold page. unfold zlen in Hf.
    rewrite drop_ge by lia. destruct (max =? 0); [done|]. apply take_nil. }
  destruct (decide (length docs = 1%nat)) as [H1|H1].
  - destruct docs as [|l [|? ?]]; [done| |done]. cbn. f_equal. apply E. by left.
  - destruct (merge_lem sortTexts max (page off max <$> docs) Hv) as (all & Hp & _ & H & _).
    { by rewrite fmap_length. }
    assert (J : mjoin (page off max <$> docs) = []).
    { clear -E. induction docs as [|l docs IH]; [done|]. rewrite fmap_cons, join_cons, E by left.
      apply IH. intros l' Hl. apply E. by right. }
    rewrite J in Hp, H. apply Permutation_nil_r in Hp. subst. apply H. unfold zlen. cbn. lia.
Qed.

(** * C68: the answer of a server *)
Lemma pageOf_force cf off max off' max' : in_force cf off max off' max' → pageOf cf off max = (off', max').
Proof.
  unfold pageOf. intros [(-> & -> & ->)|(Hm & -> & ->)]; [done|]. by destruct (Z.eqb_spec max 0).
Qed.

Definition conv (asAttri : Iface → option Attri) (rpc : bool) := if rpc then toPb asAttri else toText asAttri.
Lemma conv_shows asAttri rpc d t : conv asAttri rpc d = Some t ↔ shows asAttri rpc d t.
Proof.
  unfold shows, conv, toPb, toText. split.
  - destruct rpc; destruct (asAttri (sdAttri d)) as [a|] eqn:E; try done; cbn; intros [= <-]; cbn; eauto 10.
  - intros (H1 & H2 & H3 & a & E & H4). destruct t as [i c s at_]. cbn in *. subst.
    destruct rpc; cbn; rewrite E; done.
Qed.
Lemma convs asAttri rpc ds : Forall (λ d, is_Some (asAttri (sdAttri d))) ds →
  ∃ ts, mapM (conv asAttri rpc) ds = Some ts ∧ Forall2 (shows asAttri rpc) ds ts.
Proof.
  intros H. assert (M : is_Some (mapM (conv asAttri rpc) ds)).
  { apply mapM_is_Some. eapply Forall_impl; [done|]. intros d [a E]. unfold conv, toPb, toText.
    destruct rpc; cbn; rewrite E; by eexists. }
  destruct M as [ts M]. exists ts. split; [done|]. apply mapM_Some in M.
  eapply Forall2_impl; [done|]. intros d t. apply conv_shows.
Qed.

Lemma answer_lem asAttri sortTexts rpc max resp ds : valid_sortBy sortTexts → rsDocs resp = Some ds →
  Forall (λ d, is_Some (asAttri (sdAttri d))) ds → 0 <= max →
  (max ≠ 0 → zlen ds <= max) →
  ∃ ts out, Forall2 (shows asAttri rpc) ds ts ∧ answer sortTexts (conv asAttri rpc) max resp = Some out ∧
    newest_first out ∧ (max = 0 → out = []) ∧ (max ≠ 0 → out ≡ₚ ts).
Proof.
  intros Hv Hd Ha Hm Hl. destruct (convs asAttri rpc ds Ha) as (ts & M & F).
  destruct (sortTexts_ok sortTexts ts Hv) as [S1 S2].
  assert (Lt : zlen (sortTexts textLess ts) = zlen ds).
  { unfold zlen. by rewrite (Permutation_length S1), <- (Forall2_length _ _ _ F). }
  exists ts. unfold answer. rewrite Hd. cbn [mbind option_bind]. rewrite M. cbn [mbind option_bind].
  destruct (Z.gtb_spec (zlen (sortTexts textLess ts)) max) as [Hgt|Hle].
  - assert (max = 0) as -> by (destruct (Z.eq_dec max 0); [done|lia]).
    rewrite zslice_ok by lia. exists []. split; [done|]. split; [done|]. split; [constructor|]. split; done.
  - exists (sortTexts textLess ts). split; [done|]. split; [done|]. split; [done|]. split; [|done].
    intros ->. destruct (sortTexts textLess ts); [done|]. rewrite zlen_cons in Hle. pose proof (zlen_nonneg l). lia.
Qed.

Lemma page_len {A} off max (l : list A) : max ≠ 0 → 0 <= max → zlen (page off max l) <= max.
Proof.
  intros H H0. unfold page, zlen. destruct (Z.eqb_spec max 0); [done|]. rewrite take_length. lia.
Qed.

Section search.
  Context (log2 : F → F) (sortBy : (ScoredDoc → ScoredDoc → bool) → list ScoredDoc → list ScoredDoc).
  Context (score : IndexedDoc → Iface → list F) (toks : list string) (ids : option (gset string)).
  Context (logic : Logic) (shards : list Shard) (parts : list (list rop * list IndexedDoc)).
  Notation req := (comReq score toks logic ids).

  Lemma view_any off max off' max' : Forall2 (shard_view log2 false (req off max)) shards parts →
    Forall2 (shard_view log2 false (req off' max')) shards parts.
  Proof. done. Qed.

  Lemma engine_answer asAttri sortTexts rpc off max order : valid_sortBy sortBy → valid_sortBy sortTexts →
    no_nan (all_hits false score parts) → Forall2 (shard_view log2 false (req 0 0)) shards parts →
    all_arrive (length shards) order → 0 <= off → 0 <= max → off + max < 2^63 →
    Forall (λ d, is_Some (asAttri (sdAttri d))) (all_hits false score parts) →
    ∃ full shown ts out resp,
      full ≡ₚ all_hits false score parts ∧ in_order false full ∧
      Forall2 same_scores shown (page off max full) ∧ shown ⊆+ full ∧
      Forall2 (shows asAttri rpc) shown ts ∧
      Search log2 sortBy (req off max) shards order = Some resp ∧
      answer sortTexts (conv asAttri rpc) max resp = Some out ∧
      newest_first out ∧ (max = 0 → out = []) ∧ (max ≠ 0 → out ≡ₚ ts).
  Proof.
    intros Hv Hvt Hn Hf Ha Ho Hm Hb Hat.
    destruct (C32_lem log2 sortBy false (req off max) shards parts order Hv Hn Hf (conj eq_refl eq_refl)
      (Z.le_refl 0) Ho Hm Hb Ha) as (full & shown & F1 & F2 & F3 & F4 & F5). cbn in *.
    assert (Hs : Forall (λ d, is_Some (asAttri (sdAttri d))) shown).
    { apply Forall_forall. intros d Hd. rewrite Forall_forall in Hat. apply Hat. rewrite <- F1.
      by eapply elem_of_submseteq. }
    destruct (answer_lem asAttri sortTexts rpc max (mkResp toks false (zlen full) (Some shown)) shown Hvt eq_refl Hs Hm)
      as (ts & out & A1 & A2 & A3 & A4 & A5).
    { intros Hne. unfold zlen. rewrite (Forall2_length _ _ _ F4). by apply page_len. }
    exists full, shown, ts, out, (mkResp toks false (zlen full) (Some shown)). eauto 20.
  Qed.

  (** the worker goroutines *)
  Lemma dies_one sh p off max : valid_sortBy sortBy → shard_view log2 false (req off max) sh p →
    - 2^63 <= off < 2^63 → - 2^63 <= max < 2^63 →
    shardReply log2 sortBy (req off max) sh = None ↔
    p.2 ≠ [] ∧ max ≠ 0 ∧ (- 2^63 <= off + max < 0 ∨ 2^63 <= off + max).
  Proof.
    intros Hv Hw Ho Hm.
    destruct (view_lookup _ _ _ _ _ Hw) as [H1 _].
    unfold shardReply. cbn [rqCountOnly rqOrderless comReq] in *. rewrite H1, bind_Some_eq. cbn [fst snd].
    destruct (Z.eqb_spec (zlen p.2) 0) as [Hz|Hz].
    { split; [done|]. intros [Hne _]. destruct (p.2); [done|]. rewrite zlen_cons in Hz.
      pose proof (zlen_nonneg l). lia. }
    assert (Hne : p.2 ≠ []). { intros E. by rewrite E in Hz. }
    unfold rankerRank, shardOpts. cbn [rqOpts comReq ScoringCriteria ReverseOrder MaxOutputs OutputOffset].
    pose proof (Rank_unpaged sortBy (shRk sh) p.2 score false) as Hu.
    assert (Hbn : ∀ x : option (list ScoredDoc * Z),
      ('(out, num) ← x; Some (mkReply (Some out) num)) = None ↔ x = None).
    { intros [[a b]|]; done. }
    rewrite Hbn. rewrite (C30_lem _ _ _ _ _ _ _ _ _ Hv Hu).
    destruct (Z.eqb_spec max 0) as [E|E]; cbn [negb].
    - split; [lia|]. intros (_ & ? & _). lia.
    - pose proof (zlen_nonneg (sortScored sortBy false (omap (ProofRanker.entry (shRk sh) score) p.2))) as Hnn.
      rewrite Z.add_0_l. rewrite (int64_id (int64 _)) by apply int64_range.
      destruct (Z.lt_ge_cases (max + off) (2^63)) as [Hlt|Hge].
      + destruct (Z.lt_ge_cases (max + off) (- 2^63)) as [Hlo|Hlo].
        * assert (Hi : int64 (max + off) = max + off + 2^64).
          { unfold int64. rewrite <- (Z.mod_unique (max + off + 2^63) (2^64) (-1) (max + off + 2^63 + 2^64)); lia. }
          rewrite Hi. split; [lia|]. intros (_ & _ & ?). lia.
        * rewrite int64_id by lia. split; [|intros (_ & _ & ?)].
          -- intros [?|[? ?]]; [lia|]. split; [done|]. split; [done|]. left. lia.
          -- right. split; [|lia]. destruct (Z.eqb_spec (max + off) 0); lia.
      + assert (Hi : int64 (max + off) = max + off - 2^64).
        { unfold int64. rewrite <- (Z.mod_unique (max + off + 2^63) (2^64) 1 (max + off - 2^63)); lia. }
        rewrite Hi. split; [|lia]. intros _. split; [done|]. split; [done|]. right. lia.
  Qed.

  Lemma dies_lem off max : valid_sortBy sortBy → Forall2 (shard_view log2 false (req 0 0)) shards parts →
    - 2^63 <= off < 2^63 → - 2^63 <= max < 2^63 →
    workerDies log2 sortBy (req off max) shards ↔
    Exists (λ p, p.2 ≠ []) parts ∧ max ≠ 0 ∧ (- 2^63 <= off + max < 0 ∨ 2^63 <= off + max).
  Proof.
    intros Hv Hf Ho Hm. unfold workerDies. induction Hf as [|sh p shs ps Hw Hf IH].
    - rewrite !Exists_nil. tauto.
    - rewrite !Exists_cons, IH, (dies_one sh p off max Hv Hw Ho Hm). tauto.
  Qed.
End search.

(** * C70 *)
Lemma grpc_zero cs : ∀ st, netRun netStart cs = ModelStart.Ok st → nGrpc st = ModelStart.zeroEng.
Proof.
  assert (G : ∀ cs st0 st, nGrpc st0 = ModelStart.zeroEng → netRun st0 cs = ModelStart.Ok st → nGrpc st = ModelStart.zeroEng).
  { clear cs. induction cs as [|c cs IH]; intros st0 st H0 H; cbn in H; [by injection H as <-|].
    destruct (netStep st0 c) as [st1| |] eqn:E; cbn in H; [|done|done]. apply (IH st1); [|done].
    destruct c; cbn [netStep] in E.
    - destruct (ModelStart.EngInit _ _ _ _) as [r| |]; cbn in E; try done. by injection E as <-.
    - destruct (ModelStart.apiStart _ _); cbn in E; try done. by injection E as <-.
    - destruct (ModelStart.apiStart _ _); cbn in E; try done. by injection E as <-.
    - destruct (ModelStart.apiStart _ _); cbn in E; try done. by injection E as <-.
    - destruct (ModelStart.apiStart _ _); cbn in E; try done. by injection E as <-. }
  intros st. by apply G.
Qed.
Lemma grpc_delete cs st : netRun netStart cs = ModelStart.Ok st → netStep st NGrpcDelete = ModelStart.Fatal.
Proof. intros H. cbn. by rewrite (grpc_zero _ _ H). Qed.

Lemma http_lem log2 sortBy asAttri sortTexts score toks ids shards parts order cf off max off' max' :
  valid_sortBy sortBy → valid_sortBy sortTexts → no_nan (all_hits false score parts) →
  Forall2 (shard_view log2 false (comReq score toks noLogic ids 0 0)) shards parts →
  all_arrive (length shards) order → in_force cf off max off' max' →
  0 <= off' → 0 <= max' → off' + max' < 2^63 →
  Forall (λ d, is_Some (asAttri (sdAttri d))) (all_hits false score parts) →
  ∃ full shown ts out,
    full ≡ₚ all_hits false score parts ∧ in_order false full ∧
    Forall2 same_scores shown (page off' max' full) ∧ shown ⊆+ full ∧
    Forall2 (shows asAttri false) shown ts ∧
    httpSearch asAttri sortTexts cf (engineFor log2 sortBy score toks ids shards order noLogic) off max = Some out ∧
    newest_first out ∧ (max' = 0 → out = []) ∧ (max' ≠ 0 → out ≡ₚ ts).
Proof.
  intros Hv Hvt Hn Hf Ha Hi Ho Hm Hb Hat.
  destruct (engine_answer log2 sortBy score toks ids noLogic shards parts asAttri sortTexts false off' max' order
    Hv Hvt Hn Hf Ha Ho Hm Hb Hat) as (full & shown & ts & out & resp & H1 & H2 & H3 & H4 & H5 & H6 & H7 & H8).
  exists full, shown, ts, out. split; [done|]. split; [done|]. split; [done|]. split; [done|]. split; [done|].
  split; [|done]. unfold httpSearch. rewrite (pageOf_force _ _ _ _ _ Hi). unfold engineFor.
  rewrite H6. cbn [mbind option_bind]. exact H7.
Qed.

Lemma grpc_lem log2 sortBy asAttri sortTexts score toks ids shards parts order cf off max off' max' m s n em es en :
  let logic := mkLogic m s n em es en in
  valid_sortBy sortBy → valid_sortBy sortTexts → no_nan (all_hits false score parts) →
  Forall2 (shard_view log2 false (comReq score toks logic ids 0 0)) shards parts →
  all_arrive (length shards) order → in_force cf off max off' max' →
  0 <= off' → 0 <= max' → off' + max' < 2^63 →
  Forall (λ d, is_Some (asAttri (sdAttri d))) (all_hits false score parts) →
  ∃ full shown ts out,
    full ≡ₚ all_hits false score parts ∧ in_order false full ∧
    Forall2 same_scores shown (page off' max' full) ∧ shown ⊆+ full ∧
    Forall2 (shows asAttri true) shown ts ∧
    grpcSearch asAttri sortTexts cf (engineFor log2 sortBy score toks ids shards order)
      (Some (m, s, n, Some (em, es, en))) off max = Some out ∧
    newest_first out ∧ (max' = 0 → out = []) ∧ (max' ≠ 0 → out ≡ₚ ts).
Proof.
  intros logic Hv Hvt Hn Hf Ha Hi Ho Hm Hb Hat.
  destruct (engine_answer log2 sortBy score toks ids logic shards parts asAttri sortTexts true off' max' order
    Hv Hvt Hn Hf Ha Ho Hm Hb Hat) as (full & shown & ts & out & resp & H1 & H2 & H3 & H4 & H5 & H6 & H7 & H8).
  exists full, shown, ts, out. split; [done|]. split; [done|]. split; [done|]. split; [done|]. split; [done|].
  split; [|done]. unfold grpcSearch. rewrite (pageOf_force _ _ _ _ _ Hi). unfold engineFor. fold logic.
  rewrite H6. cbn [mbind option_bind].
  assert (E : (if max' =? 0 then cfMax cf else max') = max').
  { destruct (Z.eqb_spec max' 0) as [E|E]; [|done]. destruct Hi as [(_ & _ & ->)|(? & _ & ->)]; done. }
  rewrite E. exact H7.
Qed.

Lemma crash_lem asAttri sortTexts cf engine off max off' max' : valid_sortBy sortTexts → in_force cf off max off' max' →
  httpSearch asAttri sortTexts cf engine off max = None ↔
  match engine off' max' with
  | None => True
  | Some resp =>
    match rsDocs resp with
    | None => True
    | Some ds => Exists (λ d, asAttri (sdAttri d) = None) ds ∨ max' < 0
    end
  end.
Proof.
  intros Hv Hi. unfold httpSearch. rewrite (pageOf_force _ _ _ _ _ Hi).
  destruct (engine off' max') as [resp|]; [|done]. cbn [mbind option_bind]. unfold answer.
  destruct (rsDocs resp) as [ds|]; [|done]. cbn [mbind option_bind].
  destruct (mapM (toText asAttri) ds) as [ts|] eqn:M; cbn [mbind option_bind].
  - assert (Hno : ¬ Exists (λ d, asAttri (sdAttri d) = None) ds).
    { apply mapM_Some in M. rewrite Exists_exists. intros (d & Hd & E).
      apply elem_of_list_lookup in Hd as [i Hd]. destruct (Forall2_lookup_l _ _ _ _ _ M Hd) as (t & _ & X).
      unfold toText in X. by rewrite E in X. }
    destruct (sortTexts_ok sortTexts ts Hv) as [S1 _].
    pose proof (zlen_nonneg (sortTexts textLess ts)) as Hnn.
    destruct (Z.gtb_spec (zlen (sortTexts textLess ts)) max') as [Hgt|Hle].
    + rewrite zslice_None. split; [intros Hz; right; lia|]. intros [?|?]; [done|]. lia.
    + split; [done|]. intros [?|?]; [done|lia].
  - split; [|done]. intros _. left. apply mapM_None in M. eapply Exists_impl; [done|].
    intros d Hd. unfold toText in Hd. by destruct (asAttri (sdAttri d)).
Qed.

Lemma http_dies_lem log2 sortBy score toks ids logic shards parts cf off max off' max' :
  valid_sortBy sortBy → Forall2 (shard_view log2 false (comReq score toks logic ids 0 0)) shards parts →
  in_force cf off max off' max' → - 2^63 <= off' < 2^63 → - 2^63 <= max' < 2^63 →
  workerDies log2 sortBy (comReq score toks logic ids (pageOf cf off max).1 (pageOf cf off max).2) shards ↔
  Exists (λ p, p.2 ≠ []) parts ∧ max' ≠ 0 ∧ (- 2^63 <= off' + max' < 0 ∨ 2^63 <= off' + max').
Proof.
  intros Hv Hf Hi Ho Hm. rewrite (pageOf_force _ _ _ _ _ Hi). cbn [fst snd]. by apply dies_lem.
Qed.

Lemma rpc_panics_lem asAttri sortTexts cf engine logic off max :
  logic = None ∨ (∃ m s n, logic = Some (m, s, n, None)) →
  grpcSearch asAttri sortTexts cf engine logic off max = None.
Proof. by intros [->|(m & s & n & ->)]. Qed.
Lemma erpc_panics_lem sortTexts cf hosts m s n off max :
  egrpcSearch sortTexts cf hosts (Some (m, s, n, None)) off max = None.
Proof. done. Qed.
Lemma erpc_lem sortTexts cf hosts logic lg off max off' max' : in_force cf off max off' max' →
  (logic = None ∧ lg = noLogic ∨ ∃ m s n em es en, logic = Some (m, s, n, Some (em, es, en)) ∧ lg = mkLogic m s n em es en) →
  - 2^31 <= off' < 2^31 → - 2^31 <= max' < 2^31 →
  (None ∈ hosts lg off' max' → egrpcSearch sortTexts cf hosts logic off max = None) ∧
  (∀ replies, hosts lg off' max' = Some <$> replies →
     egrpcSearch sortTexts cf hosts logic off max = distMerge sortTexts max' replies).
Proof.
  intros Hi Hl Ho Hm.
  assert (I : ∀ x, - 2^31 <= x < 2^31 → int32 x = x).
  { intros x Hx. unfold int32. rewrite Z.mod_small; lia. }
  assert (E : egrpcSearch sortTexts cf hosts logic off max =
    let '(off', max') := pageOf cf off max in
    let max'' := if max' =? 0 then cfMax cf else max' in
    replies ← mapM id (hosts lg (rpcPage off' max').1 (rpcPage off' max').2);
    distMerge sortTexts max'' replies).
  { destruct Hl as [[-> ->]|(m & s & n & em & es & en & -> & ->)]; done. }
  rewrite E, (pageOf_force _ _ _ _ _ Hi). unfold rpcPage. cbn [fst snd]. rewrite !I by done.
  assert (X : (if max' =? 0 then cfMax cf else max') = max').
  { destruct (Z.eqb_spec max' 0) as [E0|E0]; [|done]. destruct Hi as [(_ & _ & ->)|(? & _ & ->)]; done. }
  rewrite X. generalize (hosts lg off' max') as l. clear. intros l. split.
  - intros Hn. replace (mapM id l) with (@None (list (list Text))); [done|].
    symmetry. apply mapM_None. rewrite Exists_exists. by exists None.
  - intros replies ->. replace (mapM id (Some <$> replies)) with (Some replies); [done|].
    symmetry. apply mapM_Some. rewrite Forall2_fmap_l. by apply Forall_Forall2_diag, Forall_true.
Qed.
