(** The ranker: C27-C30. *)
From Verif Require Import ModelRanker SpecRank ProofScore ProofTable.

(** * C27 *)
Lemma foldlM_app {A S} (f : S → A → option S) l1 l2 s :
  foldlM f (l1 ++ l2) s = foldlM f l1 s ≫= foldlM f l2.
Proof.
  revert s. induction l1 as [|a l1 IH]; intros s; [done|]. simpl.
  destruct (f s a); simpl; [apply IH|done].
Qed.

Lemma adds_since_snoc id ops o :
  adds_since id (ops ++ [o]) =
  if about id o then match o with ROAdd _ f c => (f, c) :: adds_since id ops | RORemove _ => [] end
  else adds_since id ops.
Proof.
  unfold adds_since. rewrite reverse_snoc, filter_cons.
  destruct (about id o) eqn:E.
  - rewrite decide_True by done. by destruct o.
  - rewrite decide_False by done. done.
Qed.
Lemma last_call_snoc id ops o :
  last_call id (ops ++ [o]) = if about id o then Some o else last_call id ops.
Proof.
  unfold last_call. rewrite reverse_snoc, filter_cons.
  destruct (about id o) eqn:E; [by rewrite decide_True by done|by rewrite decide_False by done].
Qed.

Lemma C27_general_lem only ops : (only = false → Forall string_content ops) →
  ∃ r, rrun ops (RankerInit [only]) = Some r ∧ idOnly r = only ∧
  ∀ id, ranker_holds r id (fst <$> head (adds_since id ops))
    (if only then None else head (omap given_content (snd <$> adds_since id ops)))
    (if only then None else head (omap given_attri (snd <$> adds_since id ops))).
Proof.
  induction ops as [|o ops IH] using rev_ind; intros Hs.
  - eexists. split; [done|]. split; [done|]. intros id. by destruct only.
  - destruct IH as (r & Hr & Ho & Hh).
    { intros ?. specialize (Hs H). by apply Forall_app in Hs as [? _]. }
    assert (Hso : only = false → string_content o).
    { intros ?. specialize (Hs H). apply Forall_app in Hs as [_ Hs]. by inversion Hs. }
    unfold rrun in *. rewrite foldlM_app, Hr, bind_Some_eq. cbn [foldlM].
    destruct o as [i f c|i].
    + cbn [rstep]. unfold RankerAdd. rewrite Ho. destruct only.
      * rewrite bind_Some_eq. eexists. split; [done|]. split; [done|]. intros id.
        rewrite adds_since_snoc. cbn [about]. specialize (Hh id).
        destruct Hh as (H1 & H2 & H3 & H4).
        unfold ranker_holds. cbn [rFields rContent rAttri rDocs].
        destruct (seqb i id) eqn:E.
        -- apply seqb_eq in E as ->. rewrite !lookup_insert. done.
        -- apply seqb_neq in E. rewrite !lookup_insert_ne by done. done.
      * specialize (Hso eq_refl). cbn [string_content] in Hso.
        destruct c as [|x c].
        -- rewrite !bind_Some_eq. eexists. split; [done|]. split; [done|]. intros id.
           rewrite adds_since_snoc. cbn [about]. specialize (Hh id).
           destruct Hh as (H1 & H2 & H3 & H4).
           unfold ranker_holds. cbn [rFields rContent rAttri rDocs].
           destruct (seqb i id) eqn:E.
           ++ apply seqb_eq in E as ->. rewrite !lookup_insert. done.
           ++ apply seqb_neq in E. rewrite !lookup_insert_ne by done. done.
        -- destruct Hso as [s ->]. rewrite !bind_Some_eq. eexists. split; [done|]. split; [done|]. intros id.
           rewrite adds_since_snoc. cbn [about]. specialize (Hh id).
           destruct Hh as (H1 & H2 & H3 & H4).
           unfold ranker_holds. cbn [rFields rContent rAttri rDocs].
           destruct (seqb i id) eqn:E.
           ++ apply seqb_eq in E as ->. rewrite !lookup_insert.
              destruct c as [|x c]; cbn; [done|]. by rewrite lookup_insert.
           ++ apply seqb_neq in E. rewrite !lookup_insert_ne by done.
              destruct c as [|x c]; [done|]. by rewrite lookup_insert_ne by done.
    + cbn [rstep]. unfold RankerRemove. rewrite Ho, bind_Some_eq. destruct only.
      * eexists. split; [done|]. split; [done|]. intros id.
        rewrite adds_since_snoc. cbn [about]. specialize (Hh id).
        destruct Hh as (H1 & H2 & H3 & H4).
        unfold ranker_holds. cbn [rFields rContent rAttri rDocs].
        destruct (seqb i id) eqn:E.
        -- apply seqb_eq in E as ->. rewrite !lookup_delete. done.
        -- apply seqb_neq in E. rewrite !lookup_delete_ne by done. done.
      * eexists. split; [done|]. split; [done|]. intros id.
        rewrite adds_since_snoc. cbn [about]. specialize (Hh id).
        destruct Hh as (H1 & H2 & H3 & H4).
        unfold ranker_holds. cbn [rFields rContent rAttri rDocs].
        destruct (seqb i id) eqn:E.
        -- apply seqb_eq in E as ->. rewrite !lookup_delete. done.
        -- apply seqb_neq in E. rewrite !lookup_delete_ne by done. done.
Qed.

Lemma engine_string only ops : Forall (engine_call only) ops → only = false → Forall string_content ops.
Proof.
  intros H ->. eapply Forall_impl; [done|]. intros [i f c|]; [|done]. cbn.
  intros (s & a & ->). by exists s.
Qed.

Lemma last_call_adds id ops :
  head (adds_since id ops) =
  match last_call id ops with Some (ROAdd _ f c) => Some (f, c) | _ => None end.
Proof.
  induction ops as [|o ops IH] using rev_ind; [done|].
  rewrite adds_since_snoc, last_call_snoc. destruct (about id o); [|done]. by destruct o.
Qed.
Lemma adds_since_forall (P : Iface * list Iface → Prop) id ops :
  (∀ i f c, ROAdd i f c ∈ ops → P (f, c)) → Forall P (adds_since id ops).
Proof.
  intros H. induction ops as [|o ops IH] using rev_ind; [constructor|].
  rewrite adds_since_snoc.
  assert (Forall P (adds_since id ops)).
  { apply IH. intros i f c Hc. eapply H. apply elem_of_app. left. done. }
  destruct (about id o); [|done]. destruct o as [i f c|]; [|constructor].
  constructor; [|done]. eapply (H i f c). apply elem_of_app. right. by apply elem_of_list_singleton.
Qed.

Lemma C27_lem only ops : Forall (engine_call only) ops →
  ∃ r, rrun ops (RankerInit [only]) = Some r ∧ idOnly r = only ∧
  ∀ id, match last_call id ops with
        | Some (ROAdd _ f c) =>
          ranker_holds r id (Some f) (if only then None else given_content c)
            (if only then None else given_attri c)
        | _ => ranker_holds r id None None None
        end.
Proof.
  intros Hc. destruct (C27_general_lem only ops) as (r & Hr & Ho & Hh).
  { by apply engine_string. }
  exists r. split; [done|]. split; [done|]. intros id. specialize (Hh id).
  pose proof (last_call_adds id ops) as Hl.
  destruct only.
  - rewrite Hl in Hh. destruct (last_call id ops) as [[i f c|i]|]; exact Hh.
  - assert (HP : Forall (λ p, ∃ s a, p.2 = [IStr s; a]) (adds_since id ops)).
    { apply adds_since_forall. intros i f c Hin. rewrite Forall_forall in Hc. by specialize (Hc _ Hin). }
    destruct (adds_since id ops) as [|[f' c'] l].
    + destruct (last_call id ops) as [[i f c|i]|]; [done|exact Hh|exact Hh].
    + destruct (last_call id ops) as [[i f c|i]|]; [|done|done].
      cbn in Hl. injection Hl as -> ->.
      apply Forall_cons in HP as [(s & a & Hs) _]. cbn in Hs. subst c.
      exact Hh.
Qed.

(** * C28 *)
(** What one candidate contributes. *)
Definition entry (r : Ranker) (score : IndexedDoc → Iface → list F) (d : IndexedDoc) : option ScoredDoc :=
  match rDocs r !! ixDocId d with
  | None => None
  | Some _ =>
    let sc := score d (default INil (rFields r !! ixDocId d)) in
    if 0 <? zlen sc then Some (mkEntry r d sc) else None
  end.

Lemma rankOut_eq r docs o countOnly :
  rankOut r docs o countOnly =
  (if countOnly then [] else omap (entry r (ScoringCriteria o)) docs,
   zlen (omap (entry r (ScoringCriteria o)) docs)).
Proof.
  induction docs as [|d docs IH] using rev_ind; [by destruct countOnly|].
  unfold rankOut in *. rewrite foldl_app, IH, omap_app. cbn [foldl]. unfold rankStep.
  assert (Heq : omap (entry r (ScoringCriteria o)) [d] =
    match entry r (ScoringCriteria o) d with Some e => [e] | None => [] end) by done.
  rewrite Heq, zlen_app. clear Heq.
  destruct (entry r (ScoringCriteria o) d) as [e|] eqn:E; unfold entry in E.
  - destruct (rDocs r !! ixDocId d) eqn:E1; [|done]. cbn zeta in *.
    destruct (0 <? zlen _); [|done]. injection E as <-. by destruct countOnly.
  - replace (if countOnly then [] else omap (entry r (ScoringCriteria o)) docs ++ [])
      with (if countOnly then [] else omap (entry r (ScoringCriteria o)) docs)
      by (destruct countOnly; by rewrite ?app_nil_r).
    change (zlen (@nil ScoredDoc)) with 0. rewrite Z.add_0_r.
    destruct (rDocs r !! ixDocId d) eqn:E1; [|done]. cbn zeta in *.
    by destruct (0 <? zlen _).
Qed.

Definition nfd (d : ScoredDoc) : Prop := nan_free (sdScores d).

Lemma docLess_key x y : nfd x → nfd y →
  docLess x y = true ↔ kabove (keys (sdScores x)) (keys (sdScores y)).
Proof. intros ??. by apply scoresLess_key. Qed.

Lemma strict_weak_key {A} (less : A → A → bool) (k : A → list K) (R : list K → list K → Prop) l :
  (∀ x, x ∈ l → ∀ y, y ∈ l → less x y = true ↔ R (k x) (k y)) →
  (∀ a, ¬ R a a) → (∀ a b c, R a b → R b c → R a c) → (∀ a b, R a b ∨ a = b ∨ R b a) →
  strict_weak_on less l.
Proof.
  intros Hk Hirr Htr Htri.
  assert (Hf : ∀ x y, x ∈ l → y ∈ l → less x y = false ↔ ¬ R (k x) (k y)).
  { intros x y Hx Hy. rewrite <- not_true_iff_false. rewrite Hk by done. done. }
  split; [|split].
  - intros x Hx. apply Hf; [done|done|]. apply Hirr.
  - intros x y z Hx Hy Hz H1 H2. apply Hk in H1; [|done|done]. apply Hk in H2; [|done|done].
    apply Hk; [done|done|]. by eapply Htr.
  - intros x y z Hx Hy Hz H1 H2 H3 H4.
    apply Hf in H1; [|done|done]. apply Hf in H2; [|done|done].
    apply Hf in H3; [|done|done]. apply Hf in H4; [|done|done].
    assert (k x = k y) as E1. { destruct (Htri (k x) (k y)) as [?|[?|?]]; done. }
    assert (k y = k z) as E2. { destruct (Htri (k y) (k z)) as [?|[?|?]]; done. }
    rewrite !Hf by done. rewrite E1, E2. split; apply Hirr.
Qed.

Definition before (rev : bool) (a b : list K) : Prop := if rev then kabove b a else kabove a b.
Lemma before_irrefl rev a : ¬ before rev a a.
Proof. destruct rev; apply kabove_irrefl. Qed.
Lemma before_trans rev a b c : before rev a b → before rev b c → before rev a c.
Proof. destruct rev; cbn; intros H1 H2; eapply kabove_trans; eauto. Qed.
Lemma before_trich rev a b : before rev a b ∨ a = b ∨ before rev b a.
Proof. destruct rev; cbn; destruct (kabove_trich a b) as [?|[?|?]]; tauto. Qed.

Notation skey d := (keys (sdScores d)).

Lemma sortScored_spec sortBy rev l : valid_sortBy sortBy → Forall nfd l →
  sortScored sortBy rev l ≡ₚ l ∧
  StronglySorted (λ x y, ¬ before rev (skey y) (skey x)) (sortScored sortBy rev l).
Proof.
  intros Hv Hl. unfold sortScored. rewrite Forall_forall in Hl.
  destruct (Hv (if rev then λ x y, docLess y x else docLess) l) as [Hp Hs].
  split; [done|].
  assert (Hk : ∀ x y, x ∈ l → y ∈ l → (if rev then λ x y, docLess y x else docLess) x y = true ↔
    before rev (skey x) (skey y)).
  { intros x y Hx Hy. destruct rev; cbn; apply docLess_key; by apply Hl. }
  assert (Hsw : strict_weak_on (if rev then λ x y, docLess y x else docLess) l).
  { apply (strict_weak_key _ (λ d, skey d) (before rev)).
    - intros x Hx y Hy. by apply Hk.
    - apply before_irrefl.
    - apply before_trans.
    - apply before_trich. }
  specialize (Hs Hsw).
  assert (Hin : ∀ x, x ∈ sortBy (if rev then λ x y, docLess y x else docLess) l → x ∈ l).
  { intros x Hx. by rewrite Hp in Hx. }
  revert Hs Hin. generalize (sortBy (if rev then λ x y, docLess y x else docLess) l).
  intros s Hs. induction Hs as [|x s Hs IH Hf]; intros Hin; [constructor|].
  constructor.
  - apply IH. intros y Hy. apply Hin. by right.
  - rewrite Forall_forall in Hf |- *. intros y Hy. rewrite <- Hk.
    + by rewrite Hf.
    + apply Hin. by right.
    + apply Hin. left.
Qed.

Lemma in_order_key rev l : Forall nfd l →
  StronglySorted (λ x y, ¬ before rev (skey y) (skey x)) l ↔ in_order rev l.
Proof.
  intros Hl. unfold in_order.
  assert (Hk : ∀ x y, nfd x → nfd y →
    (¬ before rev (skey y) (skey x)) ↔
    ¬ (if rev then ranks_above (sdScores x) (sdScores y) else ranks_above (sdScores y) (sdScores x))).
  { intros x y Hx Hy. destruct rev; cbn; rewrite above_key by done; done. }
  induction Hl as [|x l Hx Hl IH]; [split; constructor|].
  split.
  - inversion 1; subst. constructor; [by apply IH|].
    rewrite Forall_forall in *. intros y Hy. apply Hk; auto.
  - inversion 1; subst. constructor; [by apply IH|].
    rewrite Forall_forall in *. intros y Hy. apply Hk; auto.
Qed.

Lemma entry_expected only score ops r d : Forall (engine_call only) ops →
  rrun ops (RankerInit [only]) = Some r →
  entry r score d = expected only score (known only ops (ixDocId d)) d.
Proof.
  intros Hc Hr. destruct (C27_lem only ops Hc) as (r' & Hr' & Ho & Hh).
  rewrite Hr in Hr'. injection Hr' as <-. specialize (Hh (ixDocId d)).
  unfold entry, expected, known, mkEntry. rewrite Ho.
  destruct (last_call (ixDocId d) ops) as [[i f c|i]|] eqn:El.
  - destruct Hh as (H1 & H2 & H3 & H4). rewrite H4, H1. cbn [default].
    assert (Hcall : engine_call only (ROAdd i f c)).
    { rewrite Forall_forall in Hc. apply Hc.
      unfold last_call in El. apply head_Some_elem_of in El.
      apply elem_of_list_filter in El as [_ El]. by rewrite elem_of_reverse in El. }
    cbn in Hcall. rewrite H2, H3. destruct only.
    + cbn [from_option given_content given_attri id]. destruct (score d f) as [|x sc]; [done|].
      rewrite zlen_cons. pose proof (zlen_nonneg sc).
      destruct (Z.ltb_spec 0 (1 + zlen sc)); [done|lia].
    + destruct Hcall as (s & a & ->). cbn [from_option given_content given_attri id]. destruct (score d f) as [|x sc]; [done|].
      rewrite zlen_cons. pose proof (zlen_nonneg sc).
      destruct (Z.ltb_spec 0 (1 + zlen sc)); [done|lia].
  - destruct Hh as (H1 & H2 & H3 & H4). by rewrite H4.
  - destruct Hh as (H1 & H2 & H3 & H4). by rewrite H4.
Qed.

Lemma sort_len sortBy rev l : valid_sortBy sortBy → zlen (sortScored sortBy rev l) = zlen l.
Proof. intros Hv. unfold zlen, sortScored. f_equal. apply Permutation_length. apply Hv. Qed.

Lemma zslice_all {A} (l : list A) : zslice l 0 (zlen l) = Some l.
Proof.
  pose proof (zlen_nonneg l). rewrite zslice_ok by lia. f_equal.
  change (Z.to_nat 0) with 0%nat. cbn [drop]. apply take_ge. unfold zlen. lia.
Qed.

Lemma Rank_unpaged sortBy r docs score rev :
  Rank sortBy r docs (mkRankOpts score rev 0 0) false =
  Some (sortScored sortBy rev (omap (entry r score) docs), zlen (omap (entry r score) docs)).
Proof.
  unfold Rank. rewrite rankOut_eq. cbn [ReverseOrder ScoringCriteria].
  unfold maxOutput. cbn [MaxOutputs OutputOffset]. cbn [Z.eqb negb]. rewrite MinInt_min, Z.min_l by apply zlen_nonneg.
  by rewrite zslice_all.
Qed.

Lemma C28_lem sortBy only score rev ops r docs : valid_sortBy sortBy →
  Forall (engine_call only) ops → rrun ops (RankerInit [only]) = Some r →
  let found := omap (λ d, expected only score (known only ops (ixDocId d)) d) docs in
  no_nan found →
  (∃ out, Rank sortBy r docs (mkRankOpts score rev 0 0) false = Some (out, zlen found) ∧
     out ≡ₚ found ∧ in_order rev out) ∧
  Rank sortBy r docs (mkRankOpts score rev 0 0) true = Some ([], zlen found).
Proof.
  intros Hv Hc Hr found Hnf.
  assert (Hf : omap (entry r score) docs = found).
  { unfold found. clear found Hnf. induction docs as [|d docs IH]; [done|].
    cbn [omap list_omap]. rewrite <- (entry_expected only score ops r d Hc Hr).
    destruct (entry r score d); [by f_equal|done]. }
  split.
  - exists (sortScored sortBy rev found). rewrite Rank_unpaged, Hf. split; [done|].
    destruct (sortScored_spec sortBy rev found Hv Hnf) as [Hp Hs]. split; [done|].
    apply in_order_key; [|done]. by rewrite Hp.
  - unfold Rank. rewrite rankOut_eq. cbn [ScoringCriteria]. by rewrite Hf.
Qed.

Lemma expected_no_nan only score info docs : (∀ d f, nan_free (score d f)) →
  no_nan (omap (λ d, expected only score (info d) d) docs).
Proof.
  intros Hn. apply Forall_forall. intros e He. apply elem_of_list_omap in He as (d & _ & He).
  unfold expected in He. destruct (info d) as [[[f c] a]|]; [|done].
  specialize (Hn d f). destruct (score d f) as [|x l]; [done|]. by injection He as <-.
Qed.

(** * C29 *)
Lemma C29_lem sortBy r docs score rev full total off lim :
  Rank sortBy r docs (mkRankOpts score rev 0 0) false = Some (full, total) →
  0 <= off → 0 <= lim → off + lim < 2^63 →
  Rank sortBy r docs (mkRankOpts score rev off lim) false = Some (page off lim full, total).
Proof.
  rewrite Rank_unpaged. injection 1 as <- <-. intros Ho Hl Hb.
  unfold Rank. rewrite rankOut_eq. cbn [ReverseOrder ScoringCriteria].
  set (s := sortScored sortBy rev (omap (entry r score) docs)).
  unfold maxOutput, page. cbn [MaxOutputs OutputOffset]. rewrite !MinInt_min.
  pose proof (zlen_nonneg s).
  destruct (Z.eqb_spec lim 0) as [->|Hne]; cbn [negb].
  - rewrite zslice_ok by lia. rewrite bind_Some_eq. f_equal. f_equal.
    destruct (Z.le_gt_cases off (zlen s)).
    + rewrite Z.min_l by lia. apply take_ge. rewrite drop_length. unfold zlen in *. lia.
    + rewrite Z.min_r by lia. rewrite (drop_ge s (Z.to_nat off)) by (unfold zlen in *; lia).
      rewrite drop_ge by (unfold zlen; lia). by rewrite take_nil.
  - rewrite int64_id by lia. rewrite zslice_ok by lia. rewrite bind_Some_eq. f_equal. f_equal.
    destruct (Z.le_gt_cases off (zlen s)).
    + rewrite (Z.min_l off) by lia.
      destruct (Z.le_gt_cases (off + lim) (zlen s)).
      * rewrite Z.min_l by lia. f_equal. lia.
      * rewrite Z.min_r by lia. rewrite !take_ge; [done|..]; rewrite drop_length; unfold zlen in *; lia.
    + rewrite (Z.min_r off) by lia. rewrite (drop_ge s (Z.to_nat off)) by (unfold zlen in *; lia).
      rewrite drop_ge by (unfold zlen; lia). by rewrite !take_nil.
Qed.

Lemma pages_concat {A} (k : Z) (l : list A) (n i : nat) : 0 < k →
  zlen l <= (Z.of_nat i + Z.of_nat n) * k →
  mjoin ((λ j : nat, page (Z.of_nat j * k) k l) <$> seq i n) = drop (Z.to_nat (Z.of_nat i * k)) l.
Proof.
  intros Hk. revert i. induction n as [|n IH]; intros i Hn.
  - cbn. rewrite drop_ge; [done|]. unfold zlen in Hn. lia.
  - cbn [seq]. rewrite fmap_cons. cbn [mjoin list_join]. fold (@mjoin list _ A).
    rewrite IH by lia. unfold page at 1. destruct (Z.eqb_spec k 0); [lia|].
    rewrite <- (take_drop (Z.to_nat k) (drop (Z.to_nat (Z.of_nat i * k)) l)) at 2.
    rewrite drop_drop. f_equal. f_equal. lia.
Qed.

Lemma C29_tile_lem sortBy r docs score rev full total k (n : nat) :
  Rank sortBy r docs (mkRankOpts score rev 0 0) false = Some (full, total) →
  0 < k → zlen full <= Z.of_nat n * k → (Z.of_nat n + 1) * k < 2^63 →
  ∃ pages,
    mapM (λ j : nat, Rank sortBy r docs (mkRankOpts score rev (Z.of_nat j * k) k) false) (seq 0 n)
      = Some ((λ p, (p, total)) <$> pages) ∧
    mjoin pages = full.
Proof.
  intros Hf Hk Hn Hb. exists ((λ j : nat, page (Z.of_nat j * k) k full) <$> seq 0 n). split.
  - apply mapM_Some. rewrite <- list_fmap_compose. apply Forall2_fmap_r. apply Forall_Forall2_diag.
    apply Forall_forall. intros j [_ Hj]%elem_of_seq. cbn.
    apply C29_lem; [done|nia|lia|nia].
  - rewrite pages_concat by (try lia; nia). done.
Qed.

(** * C30 *)
Lemma zslice_None {A} (l : list A) i j : zslice l i j = None ↔ ¬ (0 <= i <= j ∧ j <= zlen l).
Proof.
  unfold zslice. destruct (Z.leb_spec 0 i), (Z.leb_spec i j), (Z.leb_spec j (zlen l)); cbn; split; intros; done || lia.
Qed.
Lemma bind_None_pure {A B} (x : option A) (f : A → B) : (y ← x; Some (f y)) = None ↔ x = None.
Proof. by destruct x. Qed.

Lemma C30_lem sortBy r docs score rev full total off lim : valid_sortBy sortBy →
  Rank sortBy r docs (mkRankOpts score rev 0 0) false = Some (full, total) →
  Rank sortBy r docs (mkRankOpts score rev off lim) false = None ↔
  off < 0 ∨ lim ≠ 0 ∧ int64 (off + lim) < Z.min off (zlen full).
Proof.
  intros Hv. rewrite Rank_unpaged. injection 1 as <- <-.
  unfold Rank. rewrite rankOut_eq. cbn [ReverseOrder ScoringCriteria].
  set (s := sortScored sortBy rev (omap (entry r score) docs)).
  unfold maxOutput. cbn [MaxOutputs OutputOffset]. rewrite !MinInt_min.
  pose proof (zlen_nonneg s).
  destruct (Z.eqb_spec lim 0) as [->|Hne]; cbn [negb];
    rewrite bind_None_pure, zslice_None; lia.
Qed.
