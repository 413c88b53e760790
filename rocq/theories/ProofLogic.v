(** Logic search. *)
From Verif Require Import ModelLookup SpecIndexer SpecSearch SpecLogic ProofSearch ProofTable ProofIndexer
  ProofCache ProofHistory ProofLookup ProofSearchThms.

(** * The row tests *)

Lemma find_row r id : row_good r →
  ∃ p, searchIndex (docIds r) 0 (zlen (docIds r) - 1) id = Some (p, bool_decide (id ∈ docIds r)).
Proof. intros [Hs Hne]. destruct (searchIndex_full (docIds r) id Hs Hne) as (p & Hp & _). eauto. Qed.

Lemma must_spec tbl id : Forall row_good tbl →
  findInMustTable tbl id = Some (bool_decide (Forall (λ r, id ∈ docIds r) tbl)).
Proof.
  induction 1 as [|r tbl Hr _ IH]; [done|]. cbn [findInMustTable].
  destruct (find_row r id Hr) as [p ->]. rewrite bind_Some_eq. rewrite IH.
  destruct (decide (id ∈ docIds r)) as [Hin|Hin].
  - rewrite (bool_decide_eq_true_2 _ Hin). f_equal. apply bool_decide_ext. rewrite Forall_cons. naive_solver.
  - rewrite (bool_decide_eq_false_2 _ Hin). symmetry. f_equal. apply bool_decide_eq_false_2.
    rewrite Forall_cons. naive_solver.
Qed.

Lemma notin_spec tbl id : Forall row_good tbl →
  findInNotInTable tbl id = Some (bool_decide (Exists (λ r, id ∈ docIds r) tbl)).
Proof.
  induction 1 as [|r tbl Hr _ IH]; [cbn; f_equal; symmetry; apply bool_decide_eq_false_2; by intros ?%Exists_nil|].
  cbn [findInNotInTable].
  destruct (find_row r id Hr) as [p ->]. rewrite bind_Some_eq. rewrite IH.
  destruct (decide (id ∈ docIds r)) as [Hin|Hin].
  - rewrite (bool_decide_eq_true_2 _ Hin). symmetry. f_equal. apply bool_decide_eq_true_2. by left.
  - rewrite (bool_decide_eq_false_2 _ Hin). f_equal. apply bool_decide_ext. rewrite Exists_cons. naive_solver.
Qed.

Definition shouldP (tbl : list KeywordIndices) (id : string) : Prop :=
  tbl = [] ∨ Exists (λ r, id ∈ docIds r) tbl.
Global Instance shouldP_dec tbl id : Decision (shouldP tbl id).
Proof.
  unfold shouldP. destruct tbl as [|r tbl]; [left; by left|].
  destruct (decide (Exists (λ r, id ∈ docIds r) (r :: tbl))); [left; by right|right; by intros [|]].
Defined.

Lemma should_spec tbl id : Forall row_good tbl → findInShouldTable tbl id = Some (bool_decide (shouldP tbl id)).
Proof.
  intros Ht. unfold findInShouldTable. destruct tbl as [|r tbl].
  - done.
  - rewrite notin_spec by done. f_equal. apply bool_decide_ext. unfold shouldP. naive_solver.
Qed.

(** * The three evaluation loops *)

Definition mustHit (flt : option (gset string)) (must should notIn : list KeywordIndices) (id : string) : Prop :=
  passes flt id ∧ Forall (λ r, id ∈ docIds r) must ∧ shouldP should id ∧ ¬ Exists (λ r, id ∈ docIds r) notIn.
Global Instance passes_dec flt id : Decision (passes flt id).
Proof. unfold passes. destruct flt; apply _. Defined.
Global Instance mustHit_dec flt a b c id : Decision (mustHit flt a b c id).
Proof. unfold mustHit. apply _. Defined.

Lemma mustLoop_spec flt countOnly row0 must should notIn n :
  Forall row_good must → Forall row_good should → Forall row_good notIn →
  (n ≤ length (docIds row0))%nat →
  mustLoop flt countOnly row0 must should notIn n =
    let ids := filter (mustHit flt must should notIn) (reverse (take n (docIds row0))) in
    Some (if countOnly then [] else emptyIDoc <$> ids, zlen ids).
Proof.
  intros Hm Hs Hn. induction n as [|n IH]; intros Hle.
  { cbn. by destruct countOnly. }
  cbn [mustLoop]. destruct (lookup_lt_is_Some_2 (docIds row0) n) as [base Hb]; [lia|].
  rewrite Hb, bind_Some_eq. rewrite (take_S_reverse _ _ _ Hb). cbv zeta. rewrite filter_cons.
  assert (Hsame : ∀ b, b = true ↔ ¬ passes flt base →
    (match flt with Some f => negb (bool_decide (base ∈ f)) | None => false end) = b).
  { intros b Hbb. apply Bool.eq_iff_eq_true. rewrite Hbb. unfold passes. destruct flt as [f|]; [|naive_solver].
    rewrite negb_true_iff, bool_decide_eq_false. done. }
  destruct (decide (passes flt base)) as [Hp|Hp].
  - rewrite (Hsame false) by naive_solver.
    rewrite must_spec, bind_Some_eq by done. rewrite should_spec, bind_Some_eq by done.
    rewrite notin_spec, bind_Some_eq by done. rewrite IH by lia. cbv zeta. rewrite bind_Some_eq.
    destruct (decide (mustHit flt must should notIn base)) as [(H1 & H2 & H3 & H4)|Hno].
    + rewrite (bool_decide_eq_true_2 _ H2), (bool_decide_eq_true_2 _ H3), (bool_decide_eq_false_2 _ H4).
      cbn [andb negb]. f_equal. f_equal; [by destruct countOnly|]. rewrite zlen_cons. lia.
    + match goal with |- (if ?c then _ else _) = _ => assert (c = false) as ->; [|done] end.
      apply not_true_iff_false. rewrite !andb_true_iff, negb_true_iff, bool_decide_eq_false, !bool_decide_eq_true.
      intros [[H1 H2] H3]. apply Hno. by split_and!.
  - rewrite (Hsame true) by naive_solver. rewrite IH by lia.
    rewrite decide_False; [done|]. by intros [? _].
Qed.

Lemma union_fold notIn cands : Forall row_good notIn → ∀ acc, NoDup acc →
  ∃ ids, foldlM (unionStep notIn) cands acc = Some ids ∧ NoDup ids ∧
    ∀ id, id ∈ ids ↔ id ∈ acc ∨ (id ∈ cands ∧ ¬ Exists (λ r, id ∈ docIds r) notIn).
Proof.
  intros Hn. induction cands as [|c cands IH]; intros acc Hacc.
  { exists acc. split; [done|]. split; [done|]. intros id. rewrite elem_of_nil. naive_solver. }
  assert (Hstep : unionStep notIn acc c =
    Some (if bool_decide (Exists (λ r, c ∈ docIds r) notIn) then acc
          else if bool_decide (c ∈ acc) then acc else acc ++ [c])).
  { unfold unionStep. by rewrite notin_spec. }
  cbn [foldlM]. rewrite Hstep, bind_Some_eq.
  destruct (decide (Exists (λ r, c ∈ docIds r) notIn)) as [He|He].
  - rewrite (bool_decide_eq_true_2 _ He). destruct (IH acc Hacc) as (ids & Hr & Hnd & Hin).
    exists ids. split; [done|]. split; [done|]. intros id. rewrite Hin, elem_of_cons. naive_solver.
  - rewrite (bool_decide_eq_false_2 _ He). destruct (decide (c ∈ acc)) as [Hc|Hc].
    + rewrite (bool_decide_eq_true_2 _ Hc). destruct (IH acc Hacc) as (ids & Hr & Hnd & Hin).
      exists ids. split; [done|]. split; [done|]. intros id. rewrite Hin, elem_of_cons. naive_solver.
    + rewrite (bool_decide_eq_false_2 _ Hc). destruct (IH (acc ++ [c])) as (ids & Hr & Hnd & Hin).
      { apply NoDup_app. split; [done|]. split; [|apply NoDup_singleton].
        intros x Hx ->%elem_of_list_singleton. done. }
      exists ids. split; [done|]. split; [done|]. intros id.
      rewrite Hin, elem_of_app, elem_of_list_singleton, elem_of_cons. naive_solver.
Qed.

Lemma notonly_fold notIn cands : Forall row_good notIn →
  (∀ id, id ∈ cands → Exists (λ r, id ∈ docIds r) notIn) → ∀ acc,
  foldlM (notOnlyStep notIn) cands acc = Some (acc ++ cands).
Proof.
  intros Hn. induction cands as [|c cands IH]; intros Hc acc.
  { cbn. by rewrite app_nil_r. }
  assert (Hstep : notOnlyStep notIn acc c = Some (acc ++ [c])).
  { unfold notOnlyStep. rewrite notin_spec by done. rewrite bind_Some_eq.
    rewrite bool_decide_eq_true_2; [done|]. apply Hc. left. }
  cbn [foldlM]. rewrite Hstep, bind_Some_eq. rewrite IH.
  - by rewrite <- app_assoc.
  - intros id Hid. apply Hc. by right.
Qed.

(** * Rows and words *)

Section Rows.
  Context (s : Indexer) (HG : ∀ k r, table s !! k = Some r → row_good r).

  Lemma mapM_good ws rows : mapM (λ k, table s !! k) ws = Some rows → Forall row_good rows.
  Proof.
    intros HM%mapM_Some. apply Forall_forall. intros r [i Hi]%elem_of_list_lookup.
    destruct (Forall2_lookup_r _ _ _ _ _ HM Hi) as (k & _ & Hk). by eapply HG.
  Qed.
  Lemma omap_good ws : Forall row_good (omap (λ k, table s !! k) ws).
  Proof. apply Forall_forall. intros r (k & _ & Hk)%elem_of_list_omap. by eapply HG. Qed.

  Lemma mapM_all ws rows id : mapM (λ k, table s !! k) ws = Some rows →
    Forall (λ r, id ∈ docIds r) rows ↔ ∀ k, k ∈ ws → in_row s k id.
  Proof.
    intros HM%mapM_Some. rewrite Forall_forall. split.
    - intros H k [i Hi]%elem_of_list_lookup. destruct (Forall2_lookup_l _ _ _ _ _ HM Hi) as (r & Hr & Hk).
      exists r. split; [done|]. apply H. by eapply elem_of_list_lookup_2.
    - intros H r [i Hi]%elem_of_list_lookup. destruct (Forall2_lookup_r _ _ _ _ _ HM Hi) as (k & Hk & Hr).
      destruct (H k) as (r' & Hr' & ?); [by eapply elem_of_list_lookup_2|]. simpl in Hr. by simplify_eq.
  Qed.
  Lemma omap_one ws id : Exists (λ r, id ∈ docIds r) (omap (λ k, table s !! k) ws) ↔ ∃ k, k ∈ ws ∧ in_row s k id.
  Proof.
    rewrite Exists_exists. split.
    - intros (r & (k & Hk & Hr)%elem_of_list_omap & Hid). exists k. split; [done|]. by exists r.
    - intros (k & Hk & r & Hr & Hid). exists r. split; [|done]. apply elem_of_list_omap. eauto.
  Qed.
  Lemma omap_nil ws id : omap (λ k, table s !! k) ws = [] → ¬ ∃ k, k ∈ ws ∧ in_row s k id.
  Proof. intros H Hk. apply omap_one in Hk. rewrite H in Hk. by apply Exists_nil in Hk. Qed.
  Lemma mapM_none ws id : mapM (λ k, table s !! k) ws = None → ¬ ∀ k, k ∈ ws → in_row s k id.
  Proof. intros (k & Hk & Hn)%mapM_None_iff H. destruct (H k Hk) as (r & Hr & _). congruence. Qed.
End Rows.

Lemma first_given_2 a b : first_given [a; b] = if nonempty a then a else b.
Proof. destruct a; [|done]. by destruct b. Qed.

(** * LogicLookup *)

Section Logic.
  Context (s : Indexer) (D : docmap) (HG : ∀ k r, table s !! k = Some r → row_good r) (HD : indexes s D).

  Lemma in_part (ws : list string) id : (∀ k, k ∈ ws → in_row s k id) ↔ ∀ k, k ∈ ws → carries D k id.
  Proof. split; intros H k Hk; apply HD; auto. Qed.

  (** The parts, in the words of the code. *)
  Lemma parts_eq keywords lg :
    let e1 := if nonempty (eMust lg) then eMust lg else keywords in
    let e2 := if nonempty (eShould lg) then eShould lg else e1 in
    let e3 := if nonempty (eNotIn lg) then eNotIn lg else e2 in
    query_of keywords lg =
      mkQuery (if lMust lg || nonempty (eMust lg) then Some e1 else None)
              (if lShould lg || nonempty (eShould lg) then Some e2 else None)
              (if lNotIn lg || nonempty (eNotIn lg) then Some e3 else None).
  Proof.
    unfold query_of, part.
    destruct (lMust lg), (lShould lg), (lNotIn lg), (eMust lg), (eShould lg), (eNotIn lg), keywords; reflexivity.
  Qed.

  Definition outcome (flt : option (gset string)) (q : query) (res : bool → option (list IndexedDoc * Z)) : Prop :=
    match qMust q with
    | Some (w :: ws) => ∃ ids, (∀ c, res c = Some (idDocs c ids)) ∧ StronglySorted (flip slt) ids ∧
        ∀ id, id ∈ ids ↔ passes flt id ∧ satisfies D q id
    | Some [] =>
        match qShould q with
        | Some ws => (∃ k id, k ∈ ws ∧ in_row s k id) ∧ (∀ c, res c = None) ∨
                     (¬ ∃ k id, k ∈ ws ∧ in_row s k id) ∧ ∀ c, res c = Some ([], 0)
        | None => ∀ c, res c = None
        end
    | None =>
      match qShould q with
      | Some ws => ∃ ids, (∀ c, res c = Some (idDocs c ids)) ∧ NoDup ids ∧
          ∀ id, id ∈ ids ↔ satisfies D q id
      | None => ∀ c, res c = Some (idDocs c (mjoin (docIds <$> omap (λ k, table s !! k) (default [] (qNot q)))))
      end
    end.

  Lemma LogicLookup_spec flt keywords lg :
    outcome flt (query_of keywords lg) (λ c, LogicLookup s flt c keywords lg).
  Proof.
    rewrite parts_eq. unfold LogicLookup.
    set (e1 := if nonempty (eMust lg) then eMust lg else keywords).
    set (e2 := if nonempty (eShould lg) then eShould lg else e1).
    set (e3 := if nonempty (eNotIn lg) then eNotIn lg else e2).
    set (nt := if lNotIn lg || nonempty (eNotIn lg) then omap (λ k, table s !! k) e3 else []).
    assert (Hnt : Forall row_good nt).
    { unfold nt. destruct (_ || _); [by apply omap_good|constructor]. }
    assert (Hnot : ∀ id, ¬ Exists (λ r, id ∈ docIds r) nt ↔
      has_none D (if lNotIn lg || nonempty (eNotIn lg) then Some e3 else None) id).
    { intros id. unfold nt. destruct (_ || _); simpl.
      - rewrite omap_one. split.
        + intros H k Hk Hc. apply H. exists k. split; [done|]. by apply HD.
        + intros H (k & Hk & Hr). apply (H k Hk). by apply HD.
      - split; [done|]. by intros _ ?%Exists_nil. }
    assert (Hnotopt : omap (λ k, table s !! k) (default [] (if lNotIn lg || nonempty (eNotIn lg) then Some e3 else None)) = nt).
    { unfold nt. by destruct (_ || _). }
    set (sh := omap (λ k, table s !! k) e2).
    assert (Hsh : Forall row_good sh) by (by apply omap_good).
    assert (Hone : ∀ id, Exists (λ r, id ∈ docIds r) sh ↔ ∃ k, k ∈ e2 ∧ carries D k id).
    { intros id. unfold sh. rewrite omap_one.
      split; intros (k & Hk & Hr); exists k; (split; [done|by apply HD]). }
    unfold outcome. cbn [qMust qShould qNot].
    destruct (lMust lg || nonempty (eMust lg)) eqn:EM.
    - destruct (mapM (λ k, table s !! k) e1) as [rows|] eqn:Er.
      + pose proof (mapM_good s HG _ _ Er) as Hrows. destruct e1 as [|w ws] eqn:Ee1.
        * cbn in Er. injection Er as <-. destruct (lShould lg || nonempty (eShould lg)) eqn:ES.
          -- cbn [andb]. fold sh. destruct sh as [|r sh'] eqn:Esh; cbn [nonempty negb].
             ++ right. split; [|done]. intros (k & id & Hk & Hr). eapply (omap_nil s e2 id); [done|eauto].
             ++ left. split; [|done].
                assert (Hin : r ∈ sh) by (rewrite Esh; left).
                apply elem_of_list_omap in Hin as (k & Hk & Hr). destruct (HG k r Hr) as [_ Hne].
                destruct (docIds r) as [|id l] eqn:El; [done|]. exists k, id. split; [done|]. exists r.
                split; [done|]. rewrite El. left.
          -- done.
        * pose proof (mapM_all s (w :: ws) rows) as HA.
          destruct rows as [|row0 rows].
          { exfalso. apply mapM_Some in Er. inversion Er. }
          apply Forall_cons in Hrows as [Hr0 Hrs].
          set (shO := if lShould lg || nonempty (eShould lg) then sh else []).
          assert (HshO : Forall row_good shO) by (unfold shO; destruct (lShould lg || nonempty (eShould lg)); [exact Hsh|constructor]).
          destruct ((lShould lg || nonempty (eShould lg)) && negb (nonempty shO)) eqn:EC.
          -- exists []. split; [by intros []|]. split; [constructor|].
             apply andb_true_iff in EC as [EC1 EC2]. unfold shO in EC2. rewrite EC1 in *.
             intros id. split; [by intros ?%elem_of_nil|]. intros (_ & _ & H2 & _). cbn in H2.
             apply Hone in H2. destruct sh; [by apply Exists_nil in H2|done].
          -- exists (filter (mustHit flt rows shO nt) (reverse (docIds row0))).
             split; [|split].
             ++ intros c. cbv beta zeta.
                rewrite mustLoop_spec by (done || lia). rewrite firstn_all. done.
             ++ apply StronglySorted_filter, sorted_reverse, Hr0.
             ++ intros id. rewrite elem_of_list_filter, elem_of_reverse. unfold mustHit, satisfies. cbn [qMust qShould qNot has_all].
                specialize (HA id Er). rewrite Forall_cons in HA. rewrite in_part in HA.
                rewrite <- HA. rewrite Hnot. clear HA.
                assert (shouldP shO id ↔ has_one D (if lShould lg || nonempty (eShould lg) then Some e2 else None) id) as ->.
                { unfold shouldP, shO in *. destruct (lShould lg || nonempty (eShould lg)); cbn [has_one].
                  - rewrite <- Hone. destruct sh; [done|]. split; [by intros [|]|by right].
                  - split; [done|by left]. }
                clear. tauto.
      + destruct e1 as [|w ws] eqn:Ee1; [done|]. exists []. split; [by intros []|]. split; [constructor|].
        intros id. split; [by intros ?%elem_of_nil|]. intros (_ & H1 & _). cbn in H1.
        exfalso. eapply (mapM_none s (w :: ws) id Er). by apply in_part.
    - destruct (lShould lg || nonempty (eShould lg)) eqn:ES.
      + cbn [andb]. fold sh. destruct sh as [|r sh'] eqn:Esh; cbn [nonempty negb].
        * exists []. split; [by intros []|]. split; [constructor|]. intros id. split; [by intros ?%elem_of_nil|].
          intros (_ & H2 & _). cbn in H2. apply Hone in H2. by apply Exists_nil in H2.
        * rewrite <- Esh in *. destruct (union_fold nt (mjoin (docIds <$> sh)) Hnt [] ltac:(constructor)) as (ids & Hr & Hnd & Hin).
          exists ids. split; [|split; [done|]].
          { intros c. cbv beta. unfold unionTable. rewrite Hr. done. }
          intros id. rewrite Hin, elem_of_nil. unfold satisfies. cbn [qMust qShould qNot has_all has_one].
          rewrite <- Hone, <- Hnot. rewrite (Exists_exists _ sh), elem_of_list_join. split.
          -- intros [[]|[(l & Hid & (q & -> & Hq)%elem_of_list_fmap) Hx]]. split; [done|]. split; [by exists q|done].
          -- intros (_ & (q & Hq & Hid) & Hx). right. split; [|done]. exists (docIds q). split; [done|].
             by apply elem_of_list_fmap_1.
      + cbn [andb]. intros c. rewrite Hnotopt. rewrite notonly_fold; [done|done|].
        intros id (l & Hid & (r & -> & Hr)%elem_of_list_fmap)%elem_of_list_join. apply Exists_exists. eauto.
  Qed.
End Logic.
