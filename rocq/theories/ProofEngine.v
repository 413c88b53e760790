(** Engine-level search: C30 (engine), C32-C34. *)
From Verif Require Import ModelEngine SpecRank SpecEngine ProofScore ProofTable ProofTopK ProofRanker ProofLookupCount.

(** * Collecting answers *)
Definition docsOf (rp : Reply) : list ScoredDoc := default [] (rpDocs rp).
Definition sumNum (rps : list Reply) : Z := foldr Z.add 0 (rpNum <$> rps).

Lemma sumNum_app l1 l2 : sumNum (l1 ++ l2) = sumNum l1 + sumNum l2.
Proof.
  unfold sumNum. rewrite fmap_app, foldr_app.
  induction (rpNum <$> l1) as [|x l IH]; cbn; [lia|]. rewrite IH. lia.
Qed.
Lemma sumNum_perm l1 l2 : l1 ≡ₚ l2 → sumNum l1 = sumNum l2.
Proof.
  unfold sumNum. induction 1; cbn [fmap list_fmap foldr]; lia.
Qed.
Lemma join_perm {A} (l1 l2 : list (list A)) : l1 ≡ₚ l2 → mjoin l1 ≡ₚ mjoin l2.
Proof.
  induction 1 as [|x l1 l2 _ IH|x y l|l1 l2 l3 _ IH1 _ IH2]; [done|..].
  - change (x ++ mjoin l1 ≡ₚ x ++ mjoin l2). by rewrite IH.
  - change (y ++ x ++ mjoin l ≡ₚ x ++ y ++ mjoin l). solve_Permutation.
  - by rewrite IH1.
Qed.

Lemma join_perm2 {A} (l1 l2 : list (list A)) : Forall2 (≡ₚ) l1 l2 → mjoin l1 ≡ₚ mjoin l2.
Proof.
  induction 1 as [|x y l1 l2 Hxy _ IH]; [done|].
  change (x ++ mjoin l1 ≡ₚ y ++ mjoin l2). by rewrite IH, Hxy.
Qed.

Lemma join_cons {A} (x : list A) l : mjoin (x :: l) = x ++ mjoin l.
Proof. done. Qed.

Lemma NotTimeOut_eq b rps :
  NotTimeOut b rps = (if b then [] else mjoin (docsOf <$> rps), sumNum rps).
Proof.
  induction rps as [|rp rps IH] using rev_ind; [by destruct b|].
  unfold NotTimeOut in *. rewrite foldl_app, IH. cbn [foldl collect].
  rewrite sumNum_app, fmap_app, join_app. f_equal.
  - destruct b; [done|]. cbn. unfold docsOf. destruct (rpDocs rp); cbn; by rewrite ?app_nil_r.
  - change (sumNum [rp]) with (rpNum rp + 0). lia.
Qed.

Lemma TimeOut_eq b (evs : list (option Reply)) :
  TimeOut b evs = (NotTimeOut b (omap id evs), negb (forallb (λ e : option Reply, if e then true else false) evs)).
Proof.
  induction evs as [|e evs IH] using rev_ind; [done|].
  unfold TimeOut in *. rewrite foldl_app, IH. cbn [foldl fst snd].
  rewrite omap_app, forallb_app. destruct e as [rp|]; cbn [forallb].
  - f_equal.
    + unfold NotTimeOut. rewrite foldl_app. done.
    + by rewrite !andb_true_r.
  - rewrite !andb_false_r. cbn [negb]. f_equal. cbn. by rewrite app_nil_r.
Qed.

(** * Routing answers *)
Definition pick (replies : list Reply) (e : option nat) : option Reply := e ≫= λ i, replies !! i.

Lemma Search_eq log2 sortBy req shards order replies :
  mapM (shardReply log2 sortBy req) shards = Some replies →
  Forall (λ i, (i < length shards)%nat) (omap id order) →
  Search log2 sortBy req shards order = Ranks sortBy req (pick replies <$> order).
Proof.
  intros Hr Ho. unfold Search. rewrite Hr, bind_Some_eq.
  apply mapM_length in Hr.
  assert (He : mapM (λ e : option nat, match e with
     | Some i => rp ← replies !! i; Some (Some rp) | None => Some None end) order
     = Some (pick replies <$> order)).
  { apply mapM_Some. apply Forall2_fmap_r. apply Forall_Forall2_diag.
    apply Forall_forall. intros [i|] He; [|done].
    rewrite Forall_forall in Ho.
    assert (i < length shards)%nat as Hi.
    { apply Ho. apply elem_of_list_omap. by exists (Some i). }
    destruct (lookup_lt_is_Some_2 replies i) as [rp Hrp]; [lia|].
    unfold pick. cbn. by rewrite Hrp. }
  by rewrite He.
Qed.

Lemma omap_id_pick replies (order : list (option nat)) :
  omap id (pick replies <$> order) = omap (λ i, replies !! i) (omap id order).
Proof.
  induction order as [|[i|] order IH]; [done|..].
  - rewrite fmap_cons. unfold pick at 1. cbn. destruct (replies !! i); cbn; by rewrite IH.
  - apply IH.
Qed.

Lemma omap_lookup_seq {A} (l : list A) : omap (λ i, l !! i) (seq 0 (length l)) = l.
Proof.
  induction l as [|x l IH]; [done|]. cbn [length seq]. cbn [omap list_omap lookup list_lookup].
  f_equal. rewrite <- fmap_S_seq. rewrite <- IH at 2.
  generalize (seq 0 (length l)). intros is. induction is as [|i is IH2]; [done|].
  rewrite fmap_cons. cbn. destruct (l !! i); by rewrite IH2.
Qed.

Lemma omap_Some_fmap {A} (l : list A) : omap id (Some <$> l) = l.
Proof. induction l as [|x l IH]; [done|]. cbn. by rewrite IH. Qed.

Lemma all_arrive_idx n order : all_arrive n order → omap id order ≡ₚ seq 0 n.
Proof.
  intros H. unfold all_arrive in H. rewrite H, omap_Some_fmap. done.
Qed.
Lemma all_arrive_range n order : all_arrive n order → Forall (λ i, (i < n)%nat) (omap id order).
Proof.
  intros H. rewrite (all_arrive_idx _ _ H). apply Forall_forall. intros i Hi%elem_of_seq. lia.
Qed.
Lemma all_arrive_replies n order (replies : list Reply) : length replies = n → all_arrive n order →
  omap id (pick replies <$> order) ≡ₚ replies.
Proof.
  intros Hn H. rewrite omap_id_pick, (all_arrive_idx _ _ H), <- Hn. by rewrite omap_lookup_seq.
Qed.

Lemma finish_perm_free sortBy req l n b :
  ranked req → finish sortBy req l n b =
  (let o := rqOpts req in
   let sorted := sortScored sortBy (ReverseOrder o) l in
   page ← zslice sorted (fst (maxRankOutput o (zlen sorted))) (snd (maxRankOutput o (zlen sorted)));
   Some (mkResp (rqTokens req) b n (Some page))).
Proof.
  intros [H1 H2]. unfold finish. rewrite H1, H2. cbn zeta.
  by destruct (maxRankOutput (rqOpts req) _).
Qed.

(** * One shard *)
Lemma hits_entry log2 only req sh p score : shard_view log2 only req sh p →
  omap (entry (shRk sh) score) p.2 = hits only score p.
Proof.
  intros (Hc & Hr & _). unfold hits. induction (p.2) as [|d docs IH]; [done|].
  cbn [omap list_omap]. rewrite <- (entry_expected only score p.1 (shRk sh) d Hc Hr).
  destruct (entry (shRk sh) score d); [by f_equal|done].
Qed.

Lemma view_lookup log2 only req sh p : shard_view log2 only req sh p →
  Lookup log2 (shIx sh) (rqTokens req) (rqLabels req) (rqDocIds req) false (Some (rqLogic req)) = Some (p.2, zlen p.2) ∧
  Lookup log2 (shIx sh) (rqTokens req) (rqLabels req) (rqDocIds req) true (Some (rqLogic req)) = Some ([], zlen p.2).
Proof.
  intros (_ & _ & n & Hn).
  destruct (Lookup_count log2 (shIx sh) (rqTokens req) (rqLabels req) (rqDocIds req) (Some (rqLogic req))) as [H1 H2].
  specialize (H2 _ _ Hn). subst n. split; [done|]. rewrite H1, Hn. done.
Qed.

(** The number of documents a shard sends at most; 0: all. *)
Definition cut {A} (lim off : Z) (l : list A) : list A :=
  if lim =? 0 then l else take (Z.to_nat (off + lim)) l.

Lemma sortScored_nil sortBy rev : valid_sortBy sortBy → sortScored sortBy rev [] = [].
Proof. intros Hv. unfold sortScored. apply Permutation_nil_r. apply Hv. Qed.

Lemma shardReply_ranked log2 sortBy only req sh p : valid_sortBy sortBy → shard_view log2 only req sh p →
  ranked req → 0 <= OutputOffset (rqOpts req) → 0 <= MaxOutputs (rqOpts req) →
  OutputOffset (rqOpts req) + MaxOutputs (rqOpts req) < 2^63 →
  ∃ rp, shardReply log2 sortBy req sh = Some rp ∧
    docsOf rp = cut (MaxOutputs (rqOpts req)) (OutputOffset (rqOpts req))
                  (sortScored sortBy (ReverseOrder (rqOpts req)) (hits only (ScoringCriteria (rqOpts req)) p)) ∧
    rpNum rp = zlen (hits only (ScoringCriteria (rqOpts req)) p).
Proof.
  intros Hv Hw [Hco Hol] Ho Hl Hb. set (o := rqOpts req) in *.
  pose proof (hits_entry log2 only req sh p (ScoringCriteria o) Hw) as He.
  destruct (view_lookup _ _ _ _ _ Hw) as [H1 _].
  unfold shardReply. rewrite Hco, Hol, H1, bind_Some_eq. cbn [fst snd].
  destruct (Z.eqb_spec (zlen p.2) 0) as [Hz|Hz].
  { eexists. split; [done|]. assert (p.2 = []) as Hn.
    { destruct (p.2); [done|]. rewrite zlen_cons in Hz. pose proof (zlen_nonneg l). lia. }
    unfold hits. rewrite Hn. cbn [omap list_omap]. rewrite sortScored_nil by done.
    unfold cut. destruct (MaxOutputs o =? 0); rewrite ?take_nil; done. }
  unfold rankerRank, shardOpts.
  pose proof (Rank_unpaged sortBy (shRk sh) p.2 (ScoringCriteria o) (ReverseOrder o)) as Hu.
  rewrite He in Hu. fold o.
  destruct (Z.eqb_spec (MaxOutputs o) 0) as [Hm|Hm]; cbn [negb].
  - rewrite Hm. rewrite Hu, bind_Some_eq. eexists. split; [done|]. unfold cut. cbn. done.
  - rewrite int64_id by lia.
    rewrite (C29_lem sortBy (shRk sh) p.2 (ScoringCriteria o) (ReverseOrder o) _ _ 0
               (MaxOutputs o + OutputOffset o) Hu) by lia.
    rewrite bind_Some_eq. eexists. split; [done|]. unfold cut, page. cbn [docsOf rpDocs rpNum default].
    destruct (Z.eqb_spec (MaxOutputs o) 0); [done|].
    destruct (Z.eqb_spec (MaxOutputs o + OutputOffset o) 0); [lia|].
    rewrite Z.add_comm. done.
Qed.

Lemma replies_ranked log2 sortBy only req shards parts : valid_sortBy sortBy →
  Forall2 (shard_view log2 only req) shards parts →
  ranked req → 0 <= OutputOffset (rqOpts req) → 0 <= MaxOutputs (rqOpts req) →
  OutputOffset (rqOpts req) + MaxOutputs (rqOpts req) < 2^63 →
  ∃ replies, mapM (shardReply log2 sortBy req) shards = Some replies ∧
    docsOf <$> replies = (λ p, cut (MaxOutputs (rqOpts req)) (OutputOffset (rqOpts req))
                  (sortScored sortBy (ReverseOrder (rqOpts req)) (hits only (ScoringCriteria (rqOpts req)) p))) <$> parts ∧
    rpNum <$> replies = (λ p, zlen (hits only (ScoringCriteria (rqOpts req)) p)) <$> parts.
Proof.
  intros Hv Hf Hr Ho Hl Hb. induction Hf as [|sh p shards parts Hw Hf IH].
  - exists []. done.
  - destruct IH as (rps & H1 & H2 & H3).
    destruct (shardReply_ranked log2 sortBy only req sh p Hv Hw Hr Ho Hl Hb) as (rp & E1 & E2 & E3).
    exists (rp :: rps). rewrite !fmap_cons, H2, H3, E2, E3. split; [|done].
    cbn [mapM]. rewrite E1. cbn. by rewrite H1.
Qed.

Lemma sum_zlen {A B} (f : A → list B) l : foldr Z.add 0 ((λ p, zlen (f p)) <$> l) = zlen (mjoin (f <$> l)).
Proof.
  induction l as [|x l IH]; [done|]. rewrite !fmap_cons, join_cons, zlen_app. cbn [foldr]. by rewrite IH.
Qed.

(** * C32, C33 (ranked part) *)
Lemma keys_sorted rev l : StronglySorted (λ x y : ScoredDoc, ¬ before rev (skey y) (skey x)) l →
  sorted (before rev) ((λ d, skey d) <$> l).
Proof.
  induction 1 as [|x l Hl IH Hx]; [constructor|]. rewrite fmap_cons. constructor; [done|].
  apply Forall_fmap. eapply Forall_impl; [done|]. done.
Qed.

Lemma fmap_join {A B} (f : A → B) (l : list (list A)) : f <$> mjoin l = mjoin (fmap (M:=list) f <$> l).
Proof.
  induction l as [|x l IH]; [done|]. rewrite fmap_cons, !join_cons, fmap_app. by rewrite IH.
Qed.

Lemma hits_nfd only score parts p : no_nan (all_hits only score parts) → p ∈ parts → Forall nfd (hits only score p).
Proof.
  intros Hn Hp. apply Forall_forall. intros e He. unfold no_nan in Hn. rewrite Forall_forall in Hn. apply Hn.
  unfold all_hits. apply elem_of_list_join. exists (hits only score p). split; [done|]. by apply elem_of_list_fmap_1.
Qed.

Lemma all_hits_no_nan only score parts : (∀ d f, nan_free (score d f)) → no_nan (all_hits only score parts).
Proof.
  intros Hn. unfold all_hits. apply Forall_forall. intros e He.
  apply elem_of_list_join in He as (l & He & Hl). apply elem_of_list_fmap in Hl as (p & -> & _).
  unfold hits in He. pose proof (expected_no_nan only score (λ d, known only p.1 (ixDocId d)) p.2 Hn) as H.
  unfold no_nan in H. rewrite Forall_forall in H. by apply H.
Qed.

Lemma cut_fmap {A B} (f : A → B) lim off l : f <$> cut lim off l = cut lim off (f <$> l).
Proof. unfold cut. destruct (lim =? 0); [done|]. by rewrite fmap_take. Qed.

(** Cutting each part and then paging gives the page of the whole. *)
Lemma merge_keys rev lim off (parts : list (list ScoredDoc)) (sparts : list (list ScoredDoc)) S full :
  0 <= off → 0 <= lim →
  Forall2 (λ p sp, sp ≡ₚ p ∧ StronglySorted (λ x y, ¬ before rev (skey y) (skey x)) sp) parts sparts →
  S ≡ₚ mjoin (cut lim off <$> sparts) → StronglySorted (λ x y, ¬ before rev (skey y) (skey x)) S →
  full ≡ₚ mjoin parts → StronglySorted (λ x y, ¬ before rev (skey y) (skey x)) full →
  page off lim ((λ d, skey d) <$> S) = page off lim ((λ d, skey d) <$> full).
Proof.
  intros Ho Hl Hp HS HSs Hf Hfs.
  set (k := λ d : ScoredDoc, skey d).
  apply keys_sorted in HSs. apply keys_sorted in Hfs. fold k in HSs, Hfs.
  assert (Hfk : k <$> full ≡ₚ mjoin (fmap (M:=list) k <$> sparts)).
  { rewrite Hf, fmap_join. apply join_perm2. apply Forall2_fmap.
    eapply Forall2_impl; [done|]. cbn. intros p sp [H _]. by rewrite H. }
  assert (Hsk : k <$> S ≡ₚ mjoin (cut lim off <$> (fmap (M:=list) k <$> sparts))).
  { rewrite HS, fmap_join. rewrite <- !list_fmap_compose. apply join_perm2.
    apply Forall2_fmap. apply Forall_Forall2_diag. apply Forall_forall. intros l _. cbn. by rewrite cut_fmap. }
  assert (Hps : Forall (sorted (before rev)) (fmap (M:=list) k <$> sparts)).
  { apply Forall_fmap. apply Forall_forall. intros l Hin.
    apply elem_of_list_lookup in Hin as [i Hi].
    destruct (Forall2_lookup_r _ _ _ _ _ Hp Hi) as (p & _ & _ & H). by apply keys_sorted. }
  destruct (Z.eqb_spec lim 0) as [->|Hne].
  - f_equal. apply (sorted_unique (before rev)); [apply before_trich|done|done|].
    rewrite Hfk, Hsk. apply join_perm2. rewrite <- (list_fmap_id (fmap (M:=list) k <$> sparts)) at 2.
    apply Forall2_fmap. apply Forall_Forall2_diag. apply Forall_forall. intros l _. done.
  - assert (Hcut : cut lim off <$> (fmap (M:=list) k <$> sparts) = take (Z.to_nat (off + lim)) <$> (fmap (M:=list) k <$> sparts)).
    { apply list_fmap_ext. intros i l _. unfold cut. destruct (Z.eqb_spec lim 0); done. }
    rewrite Hcut in Hsk.
    pose proof (parts_topk (before rev) (before_irrefl rev) (before_trans rev) (before_trich rev)
      (Z.to_nat (off + lim)) (fmap (M:=list) k <$> sparts) (k <$> S) (k <$> full) Hps HSs Hsk Hfs Hfk) as Ht.
    unfold page. destruct (Z.eqb_spec lim 0); [done|].
    rewrite !take_drop_commute. rewrite <- Z2Nat.inj_add by lia. by rewrite Ht.
Qed.

Lemma finish_page sortBy req l n b : valid_sortBy sortBy → ranked req →
  0 <= OutputOffset (rqOpts req) → 0 <= MaxOutputs (rqOpts req) →
  OutputOffset (rqOpts req) + MaxOutputs (rqOpts req) < 2^63 →
  finish sortBy req l n b = Some (mkResp (rqTokens req) b n
    (Some (page (OutputOffset (rqOpts req)) (MaxOutputs (rqOpts req))
             (sortScored sortBy (ReverseOrder (rqOpts req)) l)))).
Proof.
  intros Hv Hr Ho Hl Hb. rewrite finish_perm_free by done. cbn zeta.
  set (o := rqOpts req) in *. set (s := sortScored sortBy (ReverseOrder o) l).
  pose proof (zlen_nonneg s). unfold maxRankOutput, page.
  destruct (Z.eqb_spec (MaxOutputs o) 0) as [Hm|Hm]; cbn [fst snd]; rewrite !MinInt_min.
  - rewrite zslice_ok by lia. rewrite bind_Some_eq. do 3 f_equal.
    destruct (Z.le_gt_cases (OutputOffset o) (zlen s)).
    + rewrite Z.min_l by lia. apply take_ge. rewrite drop_length. unfold zlen in *. lia.
    + rewrite Z.min_r by lia. rewrite (drop_ge s (Z.to_nat (OutputOffset o))) by (unfold zlen in *; lia).
      rewrite drop_ge by (unfold zlen; lia). by rewrite take_nil.
  - rewrite int64_id by lia. rewrite zslice_ok by lia. rewrite bind_Some_eq. do 3 f_equal.
    destruct (Z.le_gt_cases (OutputOffset o) (zlen s)).
    + rewrite !(Z.min_l (OutputOffset o)) by lia.
      destruct (Z.le_gt_cases (OutputOffset o + MaxOutputs o) (zlen s)).
      * rewrite Z.min_l by lia. f_equal. lia.
      * rewrite Z.min_r by lia. rewrite !take_ge; [done|..]; rewrite drop_length; unfold zlen in *; lia.
    + rewrite !(Z.min_r (OutputOffset o)) by lia.
      rewrite (drop_ge s (Z.to_nat (OutputOffset o))) by (unfold zlen in *; lia).
      rewrite drop_ge by (unfold zlen; lia). by rewrite !take_nil.
Qed.

Lemma page_submseteq {A} off lim (l : list A) : page off lim l ⊆+ l.
Proof.
  unfold page. apply sublist_submseteq. destruct (lim =? 0); [apply sublist_drop|].
  etrans; [apply sublist_take|apply sublist_drop].
Qed.
Lemma page_fmap {A B} (f : A → B) off lim l : f <$> page off lim l = page off lim (f <$> l).
Proof. unfold page. destruct (lim =? 0); by rewrite ?fmap_take, ?fmap_drop. Qed.

(** What the search returns when the shards have answered, of which each has found one
    of [founds]. *)
Lemma merged_found sortBy req (founds : list (list ScoredDoc)) arrived :
  valid_sortBy sortBy → no_nan (mjoin founds) →
  0 <= OutputOffset (rqOpts req) → 0 <= MaxOutputs (rqOpts req) →
  docsOf <$> arrived ≡ₚ (λ l, cut (MaxOutputs (rqOpts req)) (OutputOffset (rqOpts req))
     (sortScored sortBy (ReverseOrder (rqOpts req)) l)) <$> founds →
  ∃ full, full ≡ₚ mjoin founds ∧
    in_order (ReverseOrder (rqOpts req)) full ∧
    let out := page (OutputOffset (rqOpts req)) (MaxOutputs (rqOpts req))
                 (sortScored sortBy (ReverseOrder (rqOpts req)) (mjoin (docsOf <$> arrived))) in
    Forall2 same_scores out (page (OutputOffset (rqOpts req)) (MaxOutputs (rqOpts req)) full) ∧
    out ⊆+ mjoin founds.
Proof.
  intros Hv Hn Ho Hl Ha. set (o := rqOpts req) in *. set (rev := ReverseOrder o) in *.
  set (all := mjoin founds).
  assert (Hnf : Forall nfd all) by exact Hn.
  destruct (sortScored_spec sortBy rev all Hv Hnf) as [Hp Hs].
  exists (sortScored sortBy rev all).
  assert (Hnff : Forall nfd (sortScored sortBy rev all)) by by rewrite Hp.
  split; [done|]. split; [by apply in_order_key|]. cbn zeta.
  set (C := mjoin (docsOf <$> arrived)).
  assert (HC : C ≡ₚ mjoin (cut (MaxOutputs o) (OutputOffset o) <$> (sortScored sortBy rev <$> founds))).
  { unfold C. apply join_perm. rewrite Ha. by rewrite <- !list_fmap_compose. }
  assert (Hsub : C ⊆+ all).
  { rewrite HC. unfold all. clear -Hv. induction founds as [|p founds IH]; [done|].
    rewrite !fmap_cons, !join_cons. apply submseteq_app; [|done].
    destruct (Hv (if rev then λ x y, docLess y x else docLess) p) as [Hpp _].
    rewrite <- Hpp at 2. unfold cut, sortScored.
    destruct (MaxOutputs o =? 0); [done|]. apply sublist_submseteq, sublist_take. }
  assert (HnC : Forall nfd C).
  { apply Forall_forall. intros x Hx. rewrite Forall_forall in Hnf. apply Hnf.
    eapply elem_of_submseteq; done. }
  destruct (sortScored_spec sortBy rev C Hv HnC) as [HpC HsC].
  split.
  - assert (Hk : page (OutputOffset o) (MaxOutputs o) ((λ d, skey d) <$> sortScored sortBy rev C) =
                 page (OutputOffset o) (MaxOutputs o) ((λ d, skey d) <$> sortScored sortBy rev all)).
    { apply (merge_keys rev (MaxOutputs o) (OutputOffset o) founds
               (sortScored sortBy rev <$> founds)); try done.
      - rewrite <- (list_fmap_id founds) at 1. apply Forall2_fmap. apply Forall_Forall2_diag. apply Forall_forall.
        intros p Hpp. cbn. apply sortScored_spec; [done|]. apply Forall_forall. intros x Hx. rewrite Forall_forall in Hnf. apply Hnf.
        apply elem_of_list_join. by exists p.
      - by rewrite HpC, HC. }
    rewrite <- !page_fmap in Hk.
    assert (H1 : Forall nfd (page (OutputOffset o) (MaxOutputs o) (sortScored sortBy rev C))).
    { apply Forall_forall. intros x Hx. rewrite Forall_forall in HnC. apply HnC. rewrite <- HpC.
      eapply elem_of_submseteq; [done|]. apply page_submseteq. }
    assert (H2 : Forall nfd (page (OutputOffset o) (MaxOutputs o) (sortScored sortBy rev all))).
    { apply Forall_forall. intros x Hx. rewrite Forall_forall in Hnff. apply Hnff.
      eapply elem_of_submseteq; [done|]. apply page_submseteq. }
    revert Hk H1 H2. generalize (page (OutputOffset o) (MaxOutputs o) (sortScored sortBy rev C)).
    generalize (page (OutputOffset o) (MaxOutputs o) (sortScored sortBy rev all)).
    intros l2 l1. revert l2. induction l1 as [|x l1 IH]; intros [|y l2].
    + intros. constructor.
    + intros Hk. by rewrite fmap_cons in Hk.
    + intros Hk. by rewrite fmap_cons in Hk.
    + rewrite !fmap_cons. injection 1 as Hxy Hk. intros H1 H2.
      inversion H1; inversion H2; subst. constructor; [|by apply IH].
      unfold same_scores. by apply score_eq_key.
  - etrans; [apply page_submseteq|]. by rewrite HpC.
Qed.

(** The same, with the hits of [parts]. *)
Lemma merged_result sortBy only req parts arrived :
  valid_sortBy sortBy → no_nan (all_hits only (ScoringCriteria (rqOpts req)) parts) →
  0 <= OutputOffset (rqOpts req) → 0 <= MaxOutputs (rqOpts req) →
  docsOf <$> arrived ≡ₚ (λ p, cut (MaxOutputs (rqOpts req)) (OutputOffset (rqOpts req))
     (sortScored sortBy (ReverseOrder (rqOpts req)) (hits only (ScoringCriteria (rqOpts req)) p))) <$> parts →
  ∃ full, full ≡ₚ all_hits only (ScoringCriteria (rqOpts req)) parts ∧
    in_order (ReverseOrder (rqOpts req)) full ∧
    let out := page (OutputOffset (rqOpts req)) (MaxOutputs (rqOpts req))
                 (sortScored sortBy (ReverseOrder (rqOpts req)) (mjoin (docsOf <$> arrived))) in
    Forall2 same_scores out (page (OutputOffset (rqOpts req)) (MaxOutputs (rqOpts req)) full) ∧
    out ⊆+ all_hits only (ScoringCriteria (rqOpts req)) parts.
Proof.
  intros Hv Hn Ho Hl Ha. apply (merged_found sortBy req (hits only (ScoringCriteria (rqOpts req)) <$> parts) arrived); [done..|].
  rewrite Ha. by rewrite <- list_fmap_compose.
Qed.

Lemma C32_lem log2 sortBy only req shards parts order : valid_sortBy sortBy →
  no_nan (all_hits only (ScoringCriteria (rqOpts req)) parts) →
  Forall2 (shard_view log2 only req) shards parts → ranked req → rqTimeout req <= 0 →
  0 <= OutputOffset (rqOpts req) → 0 <= MaxOutputs (rqOpts req) →
  OutputOffset (rqOpts req) + MaxOutputs (rqOpts req) < 2^63 →
  all_arrive (length shards) order →
  ∃ full out,
    full ≡ₚ all_hits only (ScoringCriteria (rqOpts req)) parts ∧
    in_order (ReverseOrder (rqOpts req)) full ∧
    Search log2 sortBy req shards order = Some (mkResp (rqTokens req) false (zlen full) (Some out)) ∧
    Forall2 same_scores out (page (OutputOffset (rqOpts req)) (MaxOutputs (rqOpts req)) full) ∧
    out ⊆+ full.
Proof.
  intros Hv Hn Hf Hr Ht Ho Hl Hb Ha.
  destruct (replies_ranked log2 sortBy only req shards parts Hv Hf Hr Ho Hl Hb) as (rps & H1 & H2 & H3).
  rewrite (Search_eq _ _ _ _ _ _ H1 (all_arrive_range _ _ Ha)).
  pose proof (mapM_length _ _ _ H1) as Hlen. symmetry in Hlen.
  pose proof (all_arrive_replies _ _ rps Hlen Ha) as Hperm.
  set (arrived := omap id (pick rps <$> order)) in *.
  assert (Hd : docsOf <$> arrived ≡ₚ (λ p, cut (MaxOutputs (rqOpts req)) (OutputOffset (rqOpts req))
     (sortScored sortBy (ReverseOrder (rqOpts req)) (hits only (ScoringCriteria (rqOpts req)) p))) <$> parts).
  { rewrite Hperm. by rewrite H2. }
  destruct (merged_result sortBy only req parts arrived Hv Hn Ho Hl Hd) as (full & Hp & Hs & H4 & H5).
  eexists full, _. split; [done|]. split; [done|]. split; [|split; [exact H4|by rewrite Hp]].
  unfold Ranks. destruct (Z.leb_spec (rqTimeout req) 0); [|lia]. fold arrived.
  rewrite NotTimeOut_eq. destruct Hr as [Hc Hor]. rewrite Hc.
  rewrite finish_page by done. do 2 f_equal.
  rewrite (sumNum_perm _ _ Hperm). unfold sumNum. rewrite H3, sum_zlen.
  unfold zlen. f_equal. symmetry. by apply Permutation_length.
Qed.

(** * C33, count-only *)
Lemma zlen_hits_dropped only score p : zlen p.2 = zlen (hits only score p) + zlen (dropped only score p).
Proof.
  unfold hits, dropped. induction (p.2) as [|d docs IH]; [done|].
  rewrite zlen_cons, IH, filter_cons. cbn [omap list_omap].
  destruct (is_dropped only score p.1 d) eqn:E.
  - rewrite decide_True by done.
    assert (expected only score (known only p.1 (ixDocId d)) d = None) as ->.
    { unfold is_dropped in E. unfold expected.
      destruct (known only p.1 (ixDocId d)) as [[[f c] a]|]; [|done]. by destruct (score d f). }
    rewrite zlen_cons. lia.
  - rewrite decide_False by done.
    assert (∃ e, expected only score (known only p.1 (ixDocId d)) d = Some e) as [e ->].
    { unfold is_dropped in E. unfold expected.
      destruct (known only p.1 (ixDocId d)) as [[[f c] a]|]; [|done]. destruct (score d f); [done|]. by eexists. }
    rewrite zlen_cons. lia.
Qed.

Lemma count_replies log2 sortBy only req shards parts :
  Forall2 (shard_view log2 only req) shards parts → rqCountOnly req = true →
  ∃ rps, mapM (shardReply log2 sortBy req) shards = Some rps ∧ rpNum <$> rps = (λ p, zlen p.2) <$> parts.
Proof.
  intros Hf Hc. induction Hf as [|sh p shards parts Hw Hf IH]; [by exists []|].
  destruct IH as (rps & H1 & H2). destruct (view_lookup _ _ _ _ _ Hw) as [_ Hl].
  exists (mkReply None (zlen p.2) :: rps). rewrite !fmap_cons, H2. split; [|done].
  assert (shardReply log2 sortBy req sh = Some (mkReply None (zlen p.2))) as E1.
  { unfold shardReply. rewrite Hc, Hl. done. }
  cbn [mapM]. rewrite E1. cbn. by rewrite H1.
Qed.

Lemma C33_lem log2 sortBy only req shards parts order score :
  Forall2 (shard_view log2 only req) shards parts → rqCountOnly req = true → rqTimeout req <= 0 →
  all_arrive (length shards) order →
  ∃ n, Search log2 sortBy req shards order = Some (mkResp (rqTokens req) false n None) ∧
    n = zlen (all_hits only score parts) + zlen (mjoin (dropped only score <$> parts)).
Proof.
  intros Hf Hc Ht Ha. destruct (count_replies log2 sortBy only req shards parts Hf Hc) as (rps & H1 & H2).
  rewrite (Search_eq _ _ _ _ _ _ H1 (all_arrive_range _ _ Ha)).
  pose proof (mapM_length _ _ _ H1) as Hlen. symmetry in Hlen.
  pose proof (all_arrive_replies _ _ rps Hlen Ha) as Hperm.
  unfold Ranks. destruct (Z.leb_spec (rqTimeout req) 0); [|lia].
  rewrite NotTimeOut_eq. unfold finish. rewrite Hc. eexists. split; [done|].
  rewrite (sumNum_perm _ _ Hperm). unfold sumNum. rewrite H2. unfold all_hits.
  clear. induction parts as [|p parts IH]; [done|].
  rewrite !fmap_cons, !join_cons, !zlen_app. cbn [foldr]. rewrite IH.
  rewrite (zlen_hits_dropped only score p). lia.
Qed.

Lemma C33_ranked_lem log2 sortBy only req shards parts order : valid_sortBy sortBy →
  no_nan (all_hits only (ScoringCriteria (rqOpts req)) parts) →
  Forall2 (shard_view log2 only req) shards parts → ranked req → rqTimeout req <= 0 →
  0 <= OutputOffset (rqOpts req) → 0 <= MaxOutputs (rqOpts req) →
  OutputOffset (rqOpts req) + MaxOutputs (rqOpts req) < 2^63 →
  all_arrive (length shards) order →
  rsNumDocs <$> Search log2 sortBy req shards order =
    Some (zlen (all_hits only (ScoringCriteria (rqOpts req)) parts)).
Proof.
  intros Hv Hn Hf Hr Ht Ho Hl Hb Ha.
  destruct (C32_lem log2 sortBy only req shards parts order Hv Hn Hf Hr Ht Ho Hl Hb Ha)
    as (full & out & Hp & _ & HS & _).
  rewrite HS. cbn. unfold zlen. by rewrite Hp.
Qed.

(** * Orderless search *)
Lemma orderless_replies log2 sortBy only req shards parts :
  Forall2 (shard_view log2 only req) shards parts → rqCountOnly req = false → rqOrderless req = true →
  ∃ rps, mapM (shardReply log2 sortBy req) shards = Some rps ∧
    rpNum <$> rps = (λ p, zlen p.2) <$> parts ∧
    mjoin (default [] ∘ rpDocs <$> rps) = bareEntry <$> mjoin (snd <$> parts).
Proof.
  intros Hf Hc Ho. induction Hf as [|sh p shards parts Hv Hf (rps & H1 & H2 & H3)]; [by exists []|].
  destruct Hv as (_ & _ & n & Hl).
  assert (X : ∃ rp, shardReply log2 sortBy req sh = Some rp ∧ rpNum rp = zlen p.2 ∧
    default [] (rpDocs rp) = bareEntry <$> p.2).
  { unfold shardReply. rewrite Hc, Hl, Ho. cbn [mbind option_bind].
    destruct (Z.eqb_spec (zlen p.2) 0) as [E|E].
    - eexists. split; [done|]. cbn. destruct p.2 as [|d l]; [done|]. unfold zlen in E. cbn in E. lia.
    - eexists. split; [done|]. done. }
  destruct X as (rp & X1 & X2 & X3). exists (rp :: rps).
  split; [cbn; by rewrite X1, H1|]. rewrite !fmap_cons, !join_cons, fmap_app. unfold compose in *. by rewrite X2, X3, H2, H3.
Qed.

Lemma orderless_lem log2 sortBy only req shards parts order :
  Forall2 (shard_view log2 only req) shards parts → rqCountOnly req = false → rqOrderless req = true →
  rqTimeout req <= 0 → all_arrive (length shards) order →
  ∃ docs, Search log2 sortBy req shards order =
      Some (mkResp (rqTokens req) false (zlen (mjoin (snd <$> parts))) (Some docs)) ∧
    docs ≡ₚ (λ d, mkScored (ixDocId d) [] (TokenSnippetLocs d) (TokenLocs d) "" INil INil) <$> mjoin (snd <$> parts).
Proof.
  intros Hf Hc Ho Ht Ha. destruct (orderless_replies log2 sortBy only req shards parts Hf Hc Ho) as (rps & H1 & H2 & H3).
  rewrite (Search_eq _ _ _ _ _ _ H1 (all_arrive_range _ _ Ha)).
  pose proof (mapM_length _ _ _ H1) as Hlen. symmetry in Hlen.
  pose proof (all_arrive_replies _ _ rps Hlen Ha) as Hperm.
  unfold Ranks. destruct (Z.leb_spec (rqTimeout req) 0); [|lia].
  rewrite NotTimeOut_eq. unfold finish. rewrite Hc, Ho. eexists. split.
  - f_equal. f_equal. rewrite (sumNum_perm _ _ Hperm). unfold sumNum. rewrite H2. apply (sum_zlen snd).
  - change (λ d, mkScored (ixDocId d) [] (TokenSnippetLocs d) (TokenLocs d) "" INil INil) with bareEntry.
    rewrite <- H3. apply join_perm. by rewrite Hperm.
Qed.

(** * C34 *)
Lemma shardReply_untimed log2 sortBy req sh :
  shardReply log2 sortBy (untimed req) sh = shardReply log2 sortBy req sh.
Proof. done. Qed.

Lemma mapM_pick {A B} (f : A → option B) l rs (idx : list nat) :
  mapM f l = Some rs → Forall (λ i, (i < length l)%nat) idx →
  mapM f (omap (λ i, l !! i) idx) = Some (omap (λ i, rs !! i) idx).
Proof.
  intros Hm Hi. apply mapM_Some in Hm. induction Hi as [|i idx Hi _ IH]; [done|].
  cbn [omap list_omap].
  destruct (lookup_lt_is_Some_2 l i Hi) as [x Hx].
  destruct (Forall2_lookup_l _ _ _ _ _ Hm Hx) as (r & Hr & Hf).
  rewrite Hx, Hr. cbn. rewrite Hf. cbn. by rewrite IH.
Qed.

Lemma schedule_complete n (order : list (option nat)) : schedule n order → None ∉ order → all_arrive n order.
Proof.
  intros (Hl & Hnd & Hr) Hn.
  assert (Hs : order = Some <$> omap id order).
  { clear -Hn. induction order as [|[i|] order IH]; [done|..].
    - cbn. f_equal. apply IH. intros H. apply Hn. by right.
    - exfalso. apply Hn. left. }
  unfold all_arrive. rewrite Hs at 1. apply fmap_Permutation.
  assert (Hlen : length (omap id order) = n).
  { rewrite <- Hl. rewrite Hs at 2. by rewrite fmap_length. }
  apply submseteq_Permutation_length_eq.
  - by rewrite seq_length, Hlen.
  - apply NoDup_submseteq; [done|]. intros i Hi. rewrite Forall_forall in Hr. apply elem_of_seq.
    specialize (Hr i Hi). lia.
Qed.

Lemma flag_none (order : list (option nat)) replies : 
  Forall (λ i, (i < length replies)%nat) (omap id order) →
  negb (forallb (λ e : option Reply, if e then true else false) (pick replies <$> order)) = true ↔ None ∈ order.
Proof.
  induction order as [|[i|] order IH].
  - intros _. cbn. split; [done|]. by intros ?%elem_of_nil.
  - cbn [omap list_omap id]. intros Hi. apply Forall_cons in Hi as [Hi Hr].
    rewrite fmap_cons. cbn [forallb]. unfold pick at 1. cbn.
    destruct (lookup_lt_is_Some_2 replies i Hi) as [x Hx]. rewrite Hx. cbn.
    rewrite IH by done. rewrite elem_of_cons. naive_solver.
  - intros _. cbn. split; [|done]. intros _. left.
Qed.

Lemma C34_lem log2 sortBy req shards order resp : schedule (length shards) order → 0 < rqTimeout req →
  Search log2 sortBy req shards order = Some resp →
  let answered := omap (λ i, shards !! i) (omap id order) in
  Search log2 sortBy (untimed req) answered (Some <$> seq 0 (length answered)) = Some (no_flag resp) ∧
  (rsTimeout resp = true ↔ None ∈ order) ∧
  (rsTimeout resp = false → all_arrive (length shards) order).
Proof.
  intros Hs Ht HS answered. pose proof Hs as (Hl & Hnd & Hr).
  assert (∃ rps, mapM (shardReply log2 sortBy req) shards = Some rps) as [rps H1].
  { unfold Search in HS. destruct (mapM (shardReply log2 sortBy req) shards) as [rps|]; [by exists rps|done]. }
  rewrite (Search_eq _ _ _ _ _ _ H1 Hr) in HS.
  pose proof (mapM_pick _ _ _ _ H1 Hr) as H2. fold answered in H2.
  pose proof (mapM_length _ _ _ H1) as Hlen.
  assert (Hr' : Forall (λ i, (i < length rps)%nat) (omap id order)) by by rewrite <- Hlen.
  unfold Ranks in HS. destruct (Z.leb_spec (rqTimeout req) 0); [lia|].
  rewrite TimeOut_eq in HS.
  pose proof (flag_none order rps Hr') as Hfl.
  set (flag := negb (forallb (λ e : option Reply, if e then true else false) (pick rps <$> order))) in *.
  rewrite omap_id_pick in HS. set (arrived := omap (λ i, rps !! i) (omap id order)) in *.
  assert (Hflag : rsTimeout resp = flag ∧ finish sortBy (untimed req) (NotTimeOut (rqCountOnly req) arrived).1
    (NotTimeOut (rqCountOnly req) arrived).2 false = Some (no_flag resp)).
  { destruct (NotTimeOut (rqCountOnly req) arrived) as [out num]. cbn [fst snd].
    revert HS. unfold finish. cbn [untimed rqCountOnly rqOrderless rqOpts rqTokens].
    destruct (rqCountOnly req); [by injection 1 as <-|].
    destruct (rqOrderless req); [by injection 1 as <-|].
    cbn zeta. destruct (maxRankOutput _ _) as [st en].
    destruct (zslice _ st en); [|done]. cbn. by injection 1 as <-. }
  destruct Hflag as [Hflag Hfin]. split; [|split].
  - assert (Hseq : omap id (Some <$> seq 0 (length answered)) = seq 0 (length answered)) by apply omap_Some_fmap.
    rewrite (Search_eq log2 sortBy (untimed req) answered (Some <$> seq 0 (length answered)) arrived).
    + unfold Ranks. cbn [rqTimeout untimed]. cbn [Z.leb Z.compare].
      rewrite omap_id_pick, Hseq.
      rewrite (mapM_length _ _ _ H2), omap_lookup_seq.
      cbn [rqCountOnly untimed]. destruct (NotTimeOut (rqCountOnly req) arrived) as [out num]. exact Hfin.
    + exact H2.
    + rewrite Hseq. apply Forall_forall. intros i Hi%elem_of_seq. lia.
  - by rewrite Hflag.
  - intros Hff. apply schedule_complete; [done|]. rewrite <- Hfl, <- Hflag, Hff. done.
Qed.

(** The reply channel never blocks a shard. *)
Lemma chan_lem n s : rtc (chanStep n) (chanInit n) s → chPending s ≠ [] → (length (chBuffer s) < n)%nat.
Proof.
  assert (Hinv : ∀ s', rtc (chanStep n) (chanInit n) s' →
    (length (chPending s') + length (chBuffer s') ≤ n)%nat).
  { apply (rtc_ind_r (λ s', (length (chPending s') + length (chBuffer s') ≤ n)%nat) (chanInit n)).
    - cbn. rewrite seq_length. lia.
    - intros y z _ Hyz IH. destruct Hyz; cbn in *; rewrite ?app_length in *; cbn in *; lia. }
  intros H Hp. specialize (Hinv s H). destruct (chPending s); [done|]. cbn in Hinv. lia.
Qed.

(** * C30, engine *)
Lemma rank_none log2 only req sh p sortBy : valid_sortBy sortBy → shard_view log2 only req sh p → ranked req →
  - 2^63 <= OutputOffset (rqOpts req) < 2^63 → - 2^63 <= MaxOutputs (rqOpts req) < 2^63 →
  0 <= OutputOffset (rqOpts req) → 0 <= MaxOutputs (rqOpts req) →
  shardReply log2 sortBy req sh = None ↔
  2^63 <= OutputOffset (rqOpts req) + MaxOutputs (rqOpts req) ∧ p.2 ≠ [].
Proof.
  intros Hv Hw [Hco Hol] Ho Hm Ho0 Hm0. set (o := rqOpts req) in *.
  destruct (view_lookup _ _ _ _ _ Hw) as [H1 _].
  unfold shardReply. rewrite Hco, Hol, H1, bind_Some_eq. cbn [fst snd].
  destruct (Z.eqb_spec (zlen p.2) 0) as [Hz|Hz].
  { split; [done|]. intros [_ Hne]. destruct (p.2); [done|]. rewrite zlen_cons in Hz.
    pose proof (zlen_nonneg l). lia. }
  assert (Hne : p.2 ≠ []). { intros E. by rewrite E in Hz. }
  unfold rankerRank, shardOpts. fold o.
  pose proof (Rank_unpaged sortBy (shRk sh) p.2 (ScoringCriteria o) (ReverseOrder o)) as Hu.
  assert (Hbn : ∀ x : option (list ScoredDoc * Z),
    ('(out, num) ← x; Some (mkReply (Some out) num)) = None ↔ x = None).
  { intros [[a b]|]; done. }
  rewrite Hbn. rewrite (C30_lem _ _ _ _ _ _ _ _ _ Hv Hu).
  destruct (Z.eqb_spec (MaxOutputs o) 0) as [E|E]; cbn [negb].
  - split; [lia|]. intros [? _]. lia.
  - pose proof (zlen_nonneg (sortScored sortBy (ReverseOrder o) (omap (entry (shRk sh) (ScoringCriteria o)) p.2))) as Hnn.
    rewrite Z.add_0_l. rewrite (int64_id (int64 _)) by apply int64_range.
    destruct (Z.lt_ge_cases (MaxOutputs o + OutputOffset o) (2^63)) as [Hlt|Hge].
    + rewrite int64_id by lia. split; [lia|]. lia.
    + assert (Hi : int64 (MaxOutputs o + OutputOffset o) = MaxOutputs o + OutputOffset o - 2^64).
      { unfold int64. rewrite <- (Z.mod_unique (MaxOutputs o + OutputOffset o + 2^63) (2^64) 1
          (MaxOutputs o + OutputOffset o - 2^63)); lia. }
      rewrite Hi. split; [|lia]. intros _. split; [lia|done].
Qed.

Lemma shardReply_all log2 sortBy only req shards parts : valid_sortBy sortBy →
  Forall2 (shard_view log2 only req) shards parts → ranked req →
  - 2^63 <= OutputOffset (rqOpts req) < 2^63 → - 2^63 <= MaxOutputs (rqOpts req) < 2^63 →
  0 <= OutputOffset (rqOpts req) → 0 <= MaxOutputs (rqOpts req) →
  mapM (shardReply log2 sortBy req) shards = None ↔
  2^63 <= OutputOffset (rqOpts req) + MaxOutputs (rqOpts req) ∧ Exists (λ p, p.2 ≠ []) parts.
Proof.
  intros Hv Hf Hr Ho Hm Ho0 Hm0. induction Hf as [|sh p shards parts Hw Hf IH].
  - cbn. split; [done|]. intros [_ H]. inversion H.
  - rewrite Exists_cons. cbn [mapM].
    pose proof (rank_none log2 only req sh p sortBy Hv Hw Hr Ho Hm Ho0 Hm0) as H1.
    destruct (shardReply log2 sortBy req sh) as [rp|]; cbn.
    + destruct (mapM (shardReply log2 sortBy req) shards) as [rps|]; cbn.
      * split; [done|]. intros [Hb [H|H]]; exfalso; [assert (Some rp = None) as Hc; [by apply H1|done]|assert (Some rps = None) as Hc; [by apply IH|done]].
      * split; [|done]. intros _. destruct IH as [IH _]. destruct IH as [? ?]; [done|]. tauto.
    + split; [|done]. intros _. destruct H1 as [H1 _]. destruct H1 as [? ?]; [done|]. tauto.
Qed.

Lemma C30_engine_lem log2 sortBy only req shards parts order : valid_sortBy sortBy →
  Forall2 (shard_view log2 only req) shards parts → ranked req → rqTimeout req <= 0 →
  all_arrive (length shards) order →
  - 2^63 <= OutputOffset (rqOpts req) < 2^63 → - 2^63 <= MaxOutputs (rqOpts req) < 2^63 →
  Search log2 sortBy req shards order = None ↔
  OutputOffset (rqOpts req) < 0 ∨ MaxOutputs (rqOpts req) < 0 ∨
  (2^63 <= OutputOffset (rqOpts req) + MaxOutputs (rqOpts req) ∧ Exists (λ p, p.2 ≠ []) parts).
Proof.
  intros Hv Hf Hr Ht Ha Ho Hm. set (o := rqOpts req) in *.
  destruct (mapM (shardReply log2 sortBy req) shards) as [rps|] eqn:H1.
  - rewrite (Search_eq _ _ _ _ _ _ H1 (all_arrive_range _ _ Ha)).
    pose proof (mapM_length _ _ _ H1) as Hlen. symmetry in Hlen.
    pose proof (all_arrive_replies _ _ rps Hlen Ha) as Hperm.
    set (arrived := omap id (pick rps <$> order)) in *.
    unfold Ranks. destruct (Z.leb_spec (rqTimeout req) 0); [|lia]. fold arrived.
    rewrite NotTimeOut_eq. pose proof Hr as [Hc Hor]. rewrite Hc.
    rewrite finish_perm_free by done. cbn zeta. rewrite bind_None_pure, zslice_None. fold o.
    set (s := sortScored sortBy (ReverseOrder o) (mjoin (docsOf <$> arrived))).
    pose proof (zlen_nonneg s) as Hs0.
    unfold maxRankOutput.
    destruct (Z.lt_ge_cases (OutputOffset o) 0) as [H0|H0].
    { split; [by left|]. intros _. destruct (MaxOutputs o =? 0); cbn [fst snd]; rewrite !MinInt_min; lia. }
    destruct (Z.lt_ge_cases (MaxOutputs o) 0) as [H2|H2].
    { split; [by right; left|]. intros _. destruct (Z.eqb_spec (MaxOutputs o) 0); [lia|]; cbn [fst snd]; rewrite !MinInt_min.
      assert (int64 (Z.min (OutputOffset o) (zlen s) + MaxOutputs o) = Z.min (OutputOffset o) (zlen s) + MaxOutputs o) as ->.
      { apply int64_id. lia. }
      lia. }
    pose proof (shardReply_all log2 sortBy only req shards parts Hv Hf Hr Ho Hm H0 H2) as Hall.
    rewrite H1 in Hall. fold o in Hall.
    destruct (Z.eqb_spec (MaxOutputs o) 0) as [E|E]; cbn [fst snd]; rewrite !MinInt_min.
    { split; [lia|]. intros [?|[?|[? _]]]; lia. }
    destruct (Z.lt_ge_cases (OutputOffset o + MaxOutputs o) (2^63)) as [Hlt|Hge].
    { rewrite int64_id by lia. split; [lia|]. intros [?|[?|[? _]]]; lia. }
    destruct (decide (Exists (λ p : list rop * list IndexedDoc, p.2 ≠ []) parts)) as [Hex|Hex].
    { exfalso. assert (Some rps = None) as Hcon; [|done]. apply Hall. done. }
    split; [|intros [?|[?|[_ ?]]]; [lia|lia|done]].
    intros Hbad. exfalso. apply Hbad.
    assert (zlen s = 0) as Hz.
    { unfold s. rewrite sort_len by done.
      assert (Hd : mjoin (docsOf <$> arrived) = []).
      { assert (Hall2 : Forall (λ rp, docsOf rp = []) rps).
        { assert (Hne : Forall (λ p : list rop * list IndexedDoc, p.2 = []) parts).
          { apply Forall_forall. intros p Hp. destruct (p.2) eqn:E2; [done|]. exfalso. apply Hex.
            apply Exists_exists. exists p. by rewrite E2. }
          apply mapM_Some in H1. clear -Hf H1 Hne Hr. revert rps H1.
          induction Hf as [|sh p shards parts Hw Hf IH]; intros rps H1; inversion H1; subst; [constructor|].
          apply Forall_cons in Hne as [Hp Hne]. constructor; [|by apply IH].
          destruct (view_lookup _ _ _ _ _ Hw) as [Hl _].
          destruct Hr as [Hc Hor].
          match goal with H : shardReply _ _ _ _ = Some _ |- _ => rename H into Hrep end.
          unfold shardReply in Hrep. rewrite Hc, Hl, Hp in Hrep. cbn in Hrep. by injection Hrep as <-. }
        rewrite <- Hperm in Hall2. clear -Hall2. induction Hall2 as [|rp l Hrp _ IH]; [done|].
        rewrite fmap_cons, join_cons, Hrp. done. }
      by rewrite Hd. }
    rewrite Hz. rewrite Z.min_r by lia. rewrite int64_id by lia. lia.
  - unfold Search. rewrite H1. cbn. split; [|done]. intros _.
    destruct (Z.lt_ge_cases (OutputOffset o) 0) as [H0|H0]; [by left|].
    destruct (Z.lt_ge_cases (MaxOutputs o) 0) as [H2|H2]; [by right; left|].
    right; right. by apply (shardReply_all log2 sortBy only req shards parts Hv Hf Hr Ho Hm H0 H2).
Qed.

(** * C35 *)
Lemma C35_lem numShards hash : 1 <= numShards < 2^32 → 0 <= hash < 2^32 →
  getShard numShards hash = hash `mod` numShards ∧ 0 <= getShard numShards hash < numShards.
Proof.
  intros Hn Hh. assert (getShard numShards hash = hash `mod` numShards) as ->.
  { unfold getShard, u32. rewrite (Z.mod_small numShards) by lia.
    pose proof (Z.div_mod hash numShards ltac:(lia)) as Hd.
    pose proof (Z.mod_pos_bound hash numShards ltac:(lia)) as Hb.
    pose proof (Z.div_pos hash numShards ltac:(lia) ltac:(lia)) as Hp.
    rewrite (Z.mod_small (hash `div` numShards * numShards)) by lia.
    rewrite Z.mod_small by lia. lia. }
  split; [done|]. apply Z.mod_pos_bound. lia.
Qed.

(** * C44 *)
Lemma hasDocLoop_lem id (shards : list Indexer) : ∀ n i extra,
  (i + n ≤ length shards)%nat →
  ∃ extra', hasDocLoop n (Z.of_nat i) id (shards ++ extra) =
    Some (existsb (λ ix, HasDoc ix id) (take n (drop i shards)), shards ++ extra').
Proof.
  induction n as [|n IH]; intros i extra Hi.
  - exists extra. done.
  - cbn [hasDocLoop]. cbn zeta. rewrite <- app_assoc.
    destruct (lookup_lt_is_Some_2 shards i) as [ix Hix]; [lia|].
    assert (zget (shards ++ extra ++ [blankIndexer]) (Z.of_nat i) = Some ix) as ->.
    { rewrite zget_nat. by apply lookup_app_l_Some. }
    rewrite bind_Some_eq. rewrite (drop_S shards ix i Hix). cbn [take existsb].
    destruct (HasDoc ix id) eqn:E.
    + by exists (extra ++ [blankIndexer]).
    + destruct (IH (S i) (extra ++ [blankIndexer])) as [extra' He]; [lia|].
      exists extra'. rewrite Nat2Z.inj_succ in He. unfold Z.succ in He. rewrite He. done.
Qed.

Lemma C44_lem shards ids : ∀ extra,
  ∃ extra', hasDocCalls (length shards) ids (shards ++ extra) =
    Some ((λ id, existsb (λ ix, HasDoc ix id) shards) <$> ids, shards ++ extra').
Proof.
  induction ids as [|id ids IH]; intros extra.
  - by exists extra.
  - cbn [hasDocCalls]. unfold engineHasDoc.
    destruct (hasDocLoop_lem id shards (length shards) 0 extra) as [e1 H1]; [lia|].
    change (Z.of_nat 0) with 0 in H1. rewrite H1. cbn [drop]. rewrite firstn_all.
    destruct (IH e1) as [e2 H2]. exists e2. cbn. rewrite H2. done.
Qed.
