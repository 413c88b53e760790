(** Token proximity: totality, realisability, optimality. *)
From Verif Require Import ModelLookup SpecProx ProofProx.

Lemma prox_cost_snoc lens : ∀ ps p x l rest,
  length ps = length lens →
  prox_cost (lens ++ l :: rest) (ps ++ [p; x]) = prox_cost (lens ++ l :: rest) (ps ++ [p]) + Z.abs (x - p - l).
Proof.
  induction lens as [|l0 lens IH]; intros ps p x l rest Hlen.
  - destruct ps; [|done]. simpl. destruct rest; simpl; lia.
  - destruct ps as [|p0 ps]; [done|]. simpl in Hlen.
    specialize (IH ps p x l rest). assert (length ps = length lens) as Hl by lia. specialize (IH Hl).
    cbn [app prox_cost]. destruct ps as [|p1 ps]; cbn [app] in *; rewrite IH; lia.
Qed.

Lemma prox_cost_extra lens ps rest : (length ps ≤ S (length lens))%nat →
  prox_cost (lens ++ rest) ps = prox_cost lens ps.
Proof.
  revert ps. induction lens as [|l lens IH]; intros ps Hl.
  - destruct ps as [|p [|q ps]]; simpl in *; [by destruct rest|by destruct rest|lia].
  - destruct ps as [|p [|q ps]]; [done|done|]. cbn [app prox_cost].
    specialize (IH (q :: ps)). rewrite IH; [done|]. simpl in *. lia.
Qed.

Lemma prox_cost_lip lens a b ps :
  prox_cost lens (a :: ps) <= Z.abs (a - b) + prox_cost lens (b :: ps).
Proof. destruct lens as [|l lens], ps as [|q ps]; simpl; lia. Qed.

Lemma prox_cost_nonneg lens ps : 0 <= prox_cost lens ps.
Proof.
  revert ps. induction lens as [|l lens IH]; intros ps; [done|].
  destruct ps as [|p [|q ps]]; [done|done|]. cbn [prox_cost]. specialize (IH (q :: ps)). lia.
Qed.

Lemma pval_exact len mf cf nt i :
  0 <= mf <= i * 2^32 → 0 <= i < 2^30 → 0 <= cf < 2^31 → 0 <= nt < 2^31 → 0 <= len < 2^31 →
  pval len mf cf nt = mf + Z.abs (nt - cf - len) ∧ 0 <= pval len mf cf nt <= (i + 1) * 2^32.
Proof.
  intros Hm Hi Hc Hn Hl. unfold pval. rewrite (int64_id (nt - cf)) by lia.
  rewrite (int64_id (nt - cf - len)) by lia. unfold AbsInt.
  destruct (Z.ltb_spec (nt - cf - len) 0).
  - rewrite (int64_id (- (nt - cf - len))) by lia. rewrite int64_id by lia. lia.
  - rewrite int64_id by lia. lia.
Qed.

(** Walking back from any cell is possible. *)
Definition walks (rl rp : list (list Z)) (l : list Z) : Prop :=
  ∀ c, 0 <= c < zlen l → ∃ ps, proxBack rl rp c = Some ps ∧ is_choice (reverse rl) ps.

Lemma zlen_pos {A} (l : list A) : l ≠ [] → 0 < zlen l.
Proof. destruct l; [done|]. rewrite zlen_cons. pose proof (zlen_nonneg l). lia. Qed.

Lemma proxBack_cons next cur rl rp path c f x ps :
  zget next c = Some x → zget path c = Some f → proxBack (cur :: rl) rp f = Some ps →
  proxBack (next :: cur :: rl) (path :: rp) c = Some (ps ++ [x]).
Proof. intros Hx Hf Hps. cbn [proxBack]. rewrite Hx, bind_Some_eq, Hf, bind_Some_eq. cbn [proxBack] in Hps. by rewrite Hps. Qed.

Lemma walks_next cur next rl rp nm path :
  path_range cur (nm, path) → length path = length next →
  walks (cur :: rl) rp cur → walks (next :: cur :: rl) (path :: rp) next.
Proof.
  intros HP Hl HW c Hc. destruct (zget_in next c) as [x Hx]; [done|].
  destruct (zget_in path c) as [f Hf]; [unfold zlen in *; lia|].
  assert (0 <= f < zlen cur) as Hfr by (apply zget_Some in Hf as [_ Hf]; by eapply (HP (Z.to_nat c))).
  destruct (HW f Hfr) as (ps & Hps & Hch). exists (ps ++ [x]). split; [by eapply proxBack_cons|].
  rewrite reverse_cons. unfold is_choice in *. apply Forall2_app; [done|].
  constructor; [by eapply zget_elem|constructor].
Qed.

(** * Totality of the forward pass *)
Lemma forward_total rest : ∀ cur curMin lens rl rp,
  length curMin = length cur → cur ≠ [] → Forall (λ l, l ≠ []) rest → (length rest ≤ length lens)%nat →
  walks (cur :: rl) rp cur →
  ∃ m paths lastl rl', proxForward cur curMin lens rest = Some (m, paths) ∧
    reverse rest ++ cur :: rl = lastl :: rl' ∧ length m = length lastl ∧ lastl ≠ [] ∧
    walks (reverse rest ++ cur :: rl) (reverse paths ++ rp) lastl.
Proof.
  induction rest as [|next rest IH]; intros cur curMin lens rl rp Hl Hne HF Hlens HW.
  - exists curMin, [], cur, rl. split; [done|]. split; [done|]. split; [done|]. by split.
  - inversion HF as [|? ? Hnn HFs]; subst. destruct lens as [|len lens]; [simpl in *; lia|].
    destruct (proxToken_spec cur curMin next len) as (nm & path & Hrun & Hl1 & Hl2 & HR & HP & _); [done..|].
    cbn [proxForward]. rewrite Hrun, bind_Some_eq.
    destruct (IH next nm lens (cur :: rl) (path :: rp)) as (m & paths & lastl & rl' & Hrun' & Heq & Hlm & Hln & HW').
    + done.
    + done.
    + done.
    + simpl in *. lia.
    + by eapply walks_next.
    + exists m, (path :: paths), lastl, rl'. rewrite Hrun', bind_Some_eq. split; [done|].
      rewrite reverse_cons, <- app_assoc. split; [done|]. split; [done|]. split; [done|].
      rewrite reverse_cons, <- app_assoc. done.
Qed.

Lemma proxBest_range vs : ∀ i best cur, (0 <= cur < i ∨ cur = 0) → 0 <= i →
  let r := proxBest i vs (best, cur) in 0 <= snd r ∧ (snd r < i + zlen vs ∨ snd r = 0).
Proof.
  induction vs as [|v vs IH]; intros i best c Hc Hi; cbn [proxBest].
  - cbn [fst snd]. unfold zlen. simpl. lia.
  - rewrite zlen_cons. simpl fst. destruct (v =? -1).
    + specialize (IH (i + 1) best c). cbv zeta in *. lia.
    + destruct ((best =? -1) || (v <? best)).
      * specialize (IH (i + 1) v i). cbv zeta in *. lia.
      * specialize (IH (i + 1) best c). cbv zeta in *. lia.
Qed.

Lemma walks_first cur : cur ≠ [] → walks [cur] [] cur.
Proof.
  intros Hne c Hc. destruct (zget_in cur c) as [x Hx]; [done|]. exists [x]. cbn [proxBack].
  rewrite Hx, bind_Some_eq. split; [done|]. constructor; [by eapply zget_elem|constructor].
Qed.

(** computeTokenProximity never panics on non-empty location lists, one per token. *)
Lemma proximity_total locs tokens :
  locs ≠ [] → Forall (λ l, l ≠ []) locs → length tokens = length locs →
  ∃ best tl, computeTokenProximity locs tokens = Some (best, tl) ∧ is_choice locs tl.
Proof.
  intros Hne HF Hlen. destruct locs as [|cur rest]; [done|]. inversion HF as [|? ? Hc HFs]; subst.
  unfold computeTokenProximity.
  destruct (forward_total rest cur (replicate (length cur) 0) (strlen <$> tokens) [] [])
    as (m & paths & lastl & rl' & Hrun & Heq & Hlm & Hln & HW).
  - by rewrite replicate_length.
  - done.
  - done.
  - rewrite fmap_length. simpl in *. lia.
  - by apply walks_first.
  - rewrite Hrun, bind_Some_eq.
    destruct (proxBest 0 m (-1, 0)) as [best cursor] eqn:EB.
    pose proof (proxBest_range m 0 (-1) 0) as Hr. rewrite EB in Hr. simpl in Hr.
    pose proof (zlen_pos _ Hln).
    destruct (HW cursor) as (ps & Hps & Hch).
    { destruct Hr as [? [?|?]]; [by right|lia|unfold zlen in *; lia|lia]. }
    rewrite app_nil_r in Hps. rewrite reverse_cons. rewrite Hps, bind_Some_eq.
    exists best, ps. split; [done|].
    rewrite reverse_app, reverse_cons, reverse_nil, reverse_involutive in Hch. done.
Qed.

(** * Exactness *)
Lemma is_choice_length locs ps : is_choice locs ps → length ps = length locs.
Proof. apply Forall2_length. Qed.

Lemma proxBest_spec vs : ∀ i best cur,
  (∀ j v, vs !! j = Some v → v = -1 ∨ 0 <= v) → (best = -1 ∨ 0 <= best) → 0 <= i →
  let r := proxBest i vs (best, cur) in
  (fst r = -1 ∨ 0 <= fst r) ∧
  (fst r = best ∧ snd r = cur ∨ ∃ j, vs !! j = Some (fst r) ∧ snd r = i + Z.of_nat j ∧ fst r ≠ -1) ∧
  (best ≠ -1 → fst r <= best) ∧ (best ≠ -1 → fst r ≠ -1) ∧
  (∀ j v, vs !! j = Some v → v ≠ -1 → fst r ≠ -1 ∧ fst r <= v).
Proof.
  induction vs as [|v vs IH]; intros i best c HV Hb Hi; cbn [proxBest].
  - simpl. split; [done|]. split; [by left|]. split; [lia|]. split; [done|]. intros j v Hj. by rewrite lookup_nil in Hj.
  - simpl fst.
    assert (HV' : ∀ j w, vs !! j = Some w → w = -1 ∨ 0 <= w) by (intros j w Hj; by apply (HV (S j))).
    assert (Hv : v = -1 ∨ 0 <= v) by by apply (HV 0%nat).
    destruct (Z.eqb_spec v (-1)) as [->|Hv1].
    + specialize (IH (i + 1) best c HV' Hb). cbv zeta in IH.
      destruct IH as (H1 & H2 & H3 & H4 & H5); [lia|]. cbv zeta. split; [done|]. split; [|split; [done|split; [done|]]].
      * destruct H2 as [?|(j & Hj & Hs & Hn)]; [by left|]. right. exists (S j). split; [done|]. split; [lia|done].
      * intros [|j] w Hj Hw; [simpl in Hj; congruence|]. by eapply H5.
    + destruct ((best =? -1) || (v <? best)) eqn:E.
      * specialize (IH (i + 1) v i HV' Hv). cbv zeta in IH.
        destruct IH as (H1 & H2 & H3 & H4 & H5); [lia|]. cbv zeta. split; [done|]. split; [|split; [|split]].
        -- destruct H2 as [[-> ->]|(j & Hj & Hs & Hn)]; right.
           ++ exists 0%nat. split; [done|]. split; [lia|done].
           ++ exists (S j). split; [done|]. split; [lia|done].
        -- intros Hb1. specialize (H3 Hv1). apply orb_true_iff in E as [E|E]; [apply Z.eqb_eq in E; done|apply Z.ltb_lt in E; lia].
        -- intros _. by apply H4.
        -- intros [|j] w Hj Hw; [simpl in Hj; injection Hj as <-; auto|]. by eapply H5.
      * specialize (IH (i + 1) best c HV' Hb). cbv zeta in IH.
        destruct IH as (H1 & H2 & H3 & H4 & H5); [lia|]. cbv zeta.
        apply orb_false_iff in E as [E1 E2]. apply Z.eqb_neq in E1. apply Z.ltb_ge in E2.
        split; [done|]. split; [|split; [done|split; [done|]]].
        -- destruct H2 as [?|(j & Hj & Hs & Hn)]; [by left|]. right. exists (S j). split; [done|]. split; [lia|done].
        -- intros [|j] w Hj Hw; [simpl in Hj; injection Hj as <-|by eapply H5].
           split; [by apply H4|]. specialize (H3 E1). lia.
Qed.

(** State of the dynamic program after a token: each reached cell holds the cost of
    the walk recorded for it. *)
Definition dp_ok (lens : list Z) (i : Z) (rl rp : list (list Z)) (l m : list Z) : Prop :=
  (∀ j v, m !! j = Some v → v = -1 ∨
    (0 <= v <= i * 2^32 ∧ ∃ ps x, proxBack rl rp (Z.of_nat j) = Some (ps ++ [x]) ∧
       l !! j = Some x ∧ prox_cost lens (ps ++ [x]) = v)) ∧
  (∃ j v, m !! j = Some v ∧ v ≠ -1).

Definition in31 (l : list Z) : Prop := Forall (λ x, 0 <= x < 2^31) l.

Lemma in31_lookup l j x : in31 l → l !! j = Some x → 0 <= x < 2^31.
Proof. intros H Hj. by eapply (Forall_lookup_1 _ _ _ _ H). Qed.

Lemma dp_nonneg lens i rl rp cur curMin next len :
  dp_ok lens i rl rp cur curMin → 0 <= i < 2^30 → in31 cur → in31 next → 0 <= len < 2^31 →
  nonneg cur curMin next len.
Proof.
  intros [Hdp _] Hi Hc Hn Hl from to mf cf nt Hmf Hne Hcf Hnt.
  destruct (Hdp _ _ Hmf) as [?|[Hm _]]; [done|].
  pose proof (in31_lookup _ _ _ Hc Hcf). pose proof (in31_lookup _ _ _ Hn Hnt).
  destruct (pval_exact len mf cf nt i) as [_ Hp]; try done. lia.
Qed.

(** One token keeps the invariant. *)
Lemma dp_step dlens len lens i cur curMin next rl rp nm path :
  length dlens = length rl → zlen rl = i → 0 <= i < 2^30 →
  in31 cur → in31 next → 0 <= len < 2^31 → cur ≠ [] → next ≠ [] → length curMin = length cur →
  walks (cur :: rl) rp cur →
  dp_ok (dlens ++ len :: lens) i (cur :: rl) rp cur curMin →
  proxToken cur curMin next len = Some (nm, path) →
  dp_ok (dlens ++ len :: lens) (i + 1) (next :: cur :: rl) (path :: rp) next nm.
Proof.
  intros Hdl Hrl Hi Hc Hn Hlen Hcne Hnne Hlm HW Hdp Hrun.
  pose proof (dp_nonneg _ _ _ _ _ _ next len Hdp Hi Hc Hn Hlen) as Hnn.
  destruct (proxToken_spec cur curMin next len) as (nm' & path' & Hrun' & Hl1 & Hl2 & HR & HP & HC); [done..|].
  rewrite Hrun in Hrun'. injection Hrun' as <- <-. destruct (HC Hnn) as [HV Hcov].
  destruct Hdp as [Hdp [j0 [v0 [Hj0 Hv0]]]]. split.
  - intros to v Hv. destruct (decide (v = -1)) as [->|Hv1]; [by left|]. right.
    destruct (HR to v Hv Hv1) as (from & mf & cf & nt & Hpath & Hcf & Hmf & Hmf1 & Hnt & ->).
    destruct (Hdp _ _ Hmf) as [?|(Hm & ps & x & Hback & Hx & Hcost)]; [done|].
    assert (x = cf) as -> by congruence. rewrite <- Hrl in Hm, Hi.
    pose proof (in31_lookup _ _ _ Hc Hcf). pose proof (in31_lookup _ _ _ Hn Hnt).
    destruct (pval_exact len mf cf nt (zlen rl)) as [Hpv Hpr]; try done.
    rewrite <- Hrl. split; [done|]. exists (ps ++ [cf]), nt. split; [|split; [done|]].
    + eapply proxBack_cons; [by rewrite zget_nat|by rewrite zget_nat|done].
    + rewrite <- app_assoc. cbn [app]. 
      assert (Hpl : length ps = length dlens).
      { destruct (HW (Z.of_nat from)) as (ps' & Hps' & Hch).
        { apply lookup_lt_Some in Hcf. unfold zlen. lia. }
        rewrite Hback in Hps'. injection Hps' as <-. apply is_choice_length in Hch.
        rewrite reverse_length, app_length in Hch. simpl in Hch. lia. }
      rewrite prox_cost_snoc by done. rewrite Hcost, Hpv. lia.
  - destruct (lookup_lt_is_Some_2 cur j0) as [c0 Hc0]; [rewrite <- Hlm; by eapply lookup_lt_Some|].
    destruct (Hcov j0 c0 v0) as (a & Ha & _ & _ & Hb); [by eapply lookup_lt_Some|done..|].
    destruct (zget_in next a) as [nt Hnt]; [done|].
    destruct (Hb a nt) as (v & Hv & Hvr); [by left|done|]. exists (Z.to_nat a), v. split; [done|lia].
Qed.

Lemma forward_exact rest : ∀ dlens cur curMin lens rl rp,
  length dlens = length rl → (length rest ≤ length lens)%nat → zlen rl + zlen rest < 2^30 →
  in31 cur → Forall in31 rest → in31 lens → cur ≠ [] → Forall (λ l, l ≠ []) rest →
  length curMin = length cur → walks (cur :: rl) rp cur →
  dp_ok (dlens ++ lens) (zlen rl) (cur :: rl) rp cur curMin →
  ∃ m paths lastl rl', proxForward cur curMin lens rest = Some (m, paths) ∧
    reverse rest ++ cur :: rl = lastl :: rl' ∧ length m = length lastl ∧
    walks (reverse rest ++ cur :: rl) (reverse paths ++ rp) lastl ∧
    dp_ok (dlens ++ lens) (zlen rl + zlen rest) (reverse rest ++ cur :: rl) (reverse paths ++ rp) lastl m.
Proof.
  induction rest as [|next rest IH]; intros dlens cur curMin lens rl rp Hdl Hlens Hsz Hc Hr Hl Hcne Hrne Hlm HW Hdp.
  - exists curMin, [], cur, rl. rewrite zlen_nil, Z.add_0_r. split; [done|]. split; [done|]. split; [done|]. by split.
  - inversion Hrne as [|? ? Hnne Hrnes]; subst. inversion Hr as [|? ? Hn Hrs]; subst.
    destruct lens as [|len lens]; [simpl in *; lia|]. inversion Hl as [|? ? Hlen Hls]; subst.
    rewrite zlen_cons in Hsz. pose proof (zlen_nonneg rl). pose proof (zlen_nonneg rest).
    destruct (proxToken_spec cur curMin next len) as (nm & path & Hrun & Hl1 & Hl2 & HR & HP & _); [done..|].
    cbn [proxForward]. rewrite Hrun, bind_Some_eq.
    assert (Hdp' : dp_ok (dlens ++ len :: lens) (zlen rl + 1) (next :: cur :: rl) (path :: rp) next nm).
    { eapply (dp_step dlens len lens (zlen rl)); try done; lia. }
    assert (HW' : walks (next :: cur :: rl) (path :: rp) next) by by eapply walks_next.
    destruct (IH (dlens ++ [len]) next nm lens (cur :: rl) (path :: rp))
      as (m & paths & lastl & rl' & Hrun' & Heq & Hlm' & HWl & Hdpl); try done.
    + rewrite app_length. simpl. lia.
    + simpl in *. lia.
    + rewrite zlen_cons. lia.
    + rewrite <- app_assoc. simpl. rewrite zlen_cons, Z.add_comm. done.
    + exists m, (path :: paths), lastl, rl'. rewrite Hrun', bind_Some_eq. split; [done|].
      rewrite !reverse_cons, <- !app_assoc. split; [done|]. split; [done|]. split; [done|].
      rewrite <- app_assoc in Hdpl. simpl app in Hdpl. rewrite !zlen_cons in *.
      replace (zlen rl + (1 + zlen rest)) with (1 + zlen rl + zlen rest) by lia. done.
Qed.

(** * Optimality *)

(** From [cf], some kept successor is at least as good as any successor [q]. *)
Lemma best_successor (next : list Z) cf len a q :
  StronglySorted Z.le next → 0 <= len → 0 <= a < zlen next →
  (a = 0 ∨ ∃ x, zget next a = Some x ∧ x < cf) →
  (∀ x, zget next (a + 1) = Some x → cf <= x) →
  q ∈ next → (∀ x, x ∈ next → ¬ (cf <= x < cf + len)) →
  ∃ i nt, (i = a ∨ i = a + 1) ∧ zget next i = Some nt ∧
    Z.abs (nt - cf - len) + Z.abs (nt - q) <= Z.abs (q - cf - len).
Proof.
  intros Hs Hl Ha Hlow Hhigh Hq Hno.
  assert (Hord : ∀ i j x y, i <= j → zget next i = Some x → zget next j = Some y → x <= y).
  { intros i j x y Hij [Hi Hx]%zget_Some [Hj Hy]%zget_Some.
    destruct (decide (i = j)) as [->|]; [assert (x = y) by congruence; lia|].
    eapply (StronglySorted_lookup Z.le next (Z.to_nat i) (Z.to_nat j)); [done|lia|done|done]. }
  apply elem_of_list_lookup in Hq as [k Hk].
  assert (Hzk : zget next (Z.of_nat k) = Some q) by by rewrite zget_nat.
  pose proof (Hno q (elem_of_list_lookup_2 _ _ _ Hk)) as Hnq.
  destruct (zget_in next a) as [xa Hxa]; [done|].
  pose proof (Hno xa (zget_elem _ _ _ Hxa)) as Hna.
  destruct (Z.le_gt_cases (Z.of_nat k) a) as [Hka|Hka].
  - (* q is at or before the lower candidate *)
    pose proof (Hord _ _ _ _ Hka Hzk Hxa). 
    destruct (Z.lt_ge_cases xa cf).
    + exists a, xa. split; [by left|]. split; [done|]. lia.
    + (* only possible when a = 0 *)
      destruct Hlow as [->|(x & Hx & Hxc)]; [|assert (x = xa) by congruence; lia].
      assert (Z.of_nat k = 0) as Hk0 by lia. rewrite Hk0 in Hzk. assert (q = xa) as -> by congruence.
      exists 0, xa. split; [by left|]. split; [done|]. lia.
  - (* q is after the lower candidate *)
    destruct (zget_in next (a + 1)) as [xb Hxb]; [apply zget_lt in Hzk; lia|].
    pose proof (Hhigh xb Hxb). pose proof (Hno xb (zget_elem _ _ _ Hxb)).
    assert (xb <= q) by (eapply (Hord (a + 1) (Z.of_nat k)); try done; lia).
    exists (a + 1), xb. split; [by right|]. split; [done|]. lia.
Qed.

Lemma forward_optimal rest : ∀ dlens cur curMin lens rl rp m paths,
  length dlens = length rl → (length rest ≤ length lens)%nat → zlen rl + zlen rest < 2^30 →
  in31 cur → Forall in31 rest → in31 lens → cur ≠ [] → Forall (λ l, l ≠ []) rest →
  length curMin = length cur → walks (cur :: rl) rp cur →
  dp_ok (dlens ++ lens) (zlen rl) (cur :: rl) rp cur curMin →
  StronglySorted Z.le cur → Forall (StronglySorted Z.le) rest →
  no_overlap lens (cur :: rest) →
  proxForward cur curMin lens rest = Some (m, paths) →
  ∀ j mj cj qs, curMin !! j = Some mj → mj ≠ -1 → cur !! j = Some cj → is_choice rest qs →
    ∃ k v, m !! k = Some v ∧ v ≠ -1 ∧ v <= mj + prox_cost lens (cj :: qs).
Proof.
  induction rest as [|next rest IH];
    intros dlens cur curMin lens rl rp m paths Hdl Hlens Hsz Hc Hr Hl Hcne Hrne Hlm HW Hdp Hsc Hsr Hno Hfw
      j mj cj qs Hmj Hmj1 Hcj Hqs.
  - inversion Hqs; subst. injection Hfw as <- <-. exists j, mj. split; [done|]. split; [done|].
    destruct lens; simpl; lia.
  - inversion Hrne as [|? ? Hnne Hrnes]; subst. inversion Hr as [|? ? Hn Hrs]; subst.
    inversion Hsr as [|? ? Hsn Hsrs]; subst. inversion Hqs as [|q ? qs' ? Hq Hqs']; subst.
    destruct lens as [|len lens]; [simpl in *; lia|]. inversion Hl as [|? ? Hlen Hls]; subst.
    rewrite zlen_cons in Hsz. pose proof (zlen_nonneg rl). pose proof (zlen_nonneg rest).
    destruct Hno as [Hno Hnos].
    destruct (proxToken_spec cur curMin next len) as (nm & path & Hrun & Hl1 & Hl2 & HR & HP & HC); [done..|].
    cbn [proxForward] in Hfw. rewrite Hrun, bind_Some_eq in Hfw.
    destruct (proxForward next nm lens rest) as [[m' paths']|] eqn:Hfw'; [|done].
    rewrite bind_Some_eq in Hfw. injection Hfw as -> <-.
    pose proof (dp_nonneg _ _ _ _ _ _ next len Hdp ltac:(lia) Hc Hn Hlen) as Hnn.
    destruct (HC Hnn) as [HV Hcov].
    destruct (Hcov j cj mj) as (a & Ha & Hlow & Hhigh & Hb); [by eapply lookup_lt_Some|done..|].
    destruct (best_successor next cj len a q) as (i & nt & Hi & Hnt & Hle); try done; [lia|by auto| |].
    { intros x Hx. apply Hno; [by eapply elem_of_list_lookup_2|done]. }
    destruct (Hb i nt Hi Hnt) as (v & Hv & Hvr).
    assert (Hpv : pval len mj cj nt = mj + Z.abs (nt - cj - len)).
    { destruct Hdp as [Hdp _]. destruct (Hdp _ _ Hmj) as [?|[Hm _]]; [done|].
      apply zget_Some in Hnt as [_ Hnt].
      pose proof (in31_lookup _ _ _ Hc Hcj). pose proof (in31_lookup _ _ _ Hn Hnt).
      apply (pval_exact len mj cj nt (zlen rl)); try done. lia. }
    assert (Hdp' : dp_ok (dlens ++ len :: lens) (zlen rl + 1) (next :: cur :: rl) (path :: rp) next nm).
    { eapply (dp_step dlens len lens (zlen rl)); try done; lia. }
    destruct (IH (dlens ++ [len]) next nm lens (cur :: rl) (path :: rp) m paths') with (j := Z.to_nat i) (mj := v) (cj := nt) (qs := qs')
      as (k & w & Hw & Hw1 & Hwle); try done.
    + rewrite app_length. simpl. lia.
    + simpl in *. lia.
    + rewrite zlen_cons. lia.
    + by eapply walks_next.
    + rewrite <- app_assoc. simpl. by rewrite zlen_cons, Z.add_comm.
    + lia.
    + by apply zget_Some in Hnt as [_ ?].
    + exists k, w. split; [done|]. split; [done|].
      pose proof (prox_cost_lip lens nt q qs'). cbn [prox_cost]. lia.
Qed.

Lemma strlen_nonneg s : 0 <= strlen s.
Proof. unfold strlen. lia. Qed.

Lemma proximity_spec locs tokens best tl :
  locs ≠ [] → Forall (λ l, l ≠ []) locs → length tokens = length locs → small_inputs locs tokens →
  computeTokenProximity locs tokens = Some (best, tl) →
  0 <= best ∧ is_choice locs tl ∧ best = prox_cost (strlen <$> tokens) tl ∧
  (Forall (StronglySorted Z.le) locs → no_overlap (strlen <$> tokens) locs →
   ∀ qs, is_choice locs qs → best <= prox_cost (strlen <$> tokens) qs).
Proof.
  intros Hne HF Hlen (Hsl & Hst & Hsz) Hrun0.
  destruct locs as [|cur rest]; [done|]. inversion HF as [|? ? Hc HFs]; subst.
  inversion Hsl as [|? ? Hcs Hrs]; subst.
  unfold computeTokenProximity in Hrun0.
  assert (Hlens : in31 (strlen <$> tokens)).
  { unfold in31. apply Forall_fmap. eapply Forall_impl; [exact Hst|]. intros t Ht. simpl.
    split; [apply strlen_nonneg|done]. }
  set (m0 := replicate (length cur) 0) in *.
  assert (Hl0 : length m0 = length cur) by apply replicate_length.
  assert (Hdp0 : dp_ok ([] ++ (strlen <$> tokens)) (zlen (@nil (list Z))) [cur] [] cur m0).
  { split.
    - intros j v Hv. subst m0. apply lookup_replicate in Hv as [-> Hj]. right. change (zlen (@nil (list Z))) with 0. split; [lia|].
      destruct (lookup_lt_is_Some_2 cur j Hj) as [x Hx].
      exists [], x. cbn [proxBack]. rewrite zget_nat, Hx, bind_Some_eq. split; [done|]. split; [done|].
      by destruct tokens.
    - destruct (lookup_lt_is_Some_2 m0 0%nat) as [v Hv].
      { rewrite Hl0. destruct cur; [done|]. simpl. lia. }
      exists 0%nat, v. split; [done|]. subst m0. apply lookup_replicate in Hv as [-> _]. done. }
  assert (Hszr : zlen (@nil (list Z)) + zlen rest < 2^30).
  { unfold zlen in *. simpl in *. lia. }
  assert (Hlr : (length rest ≤ length (strlen <$> tokens))%nat) by (rewrite fmap_length; simpl in *; lia).
  destruct (forward_exact rest [] cur m0 (strlen <$> tokens) [] [])
    as (m & paths & lastl & rl' & Hrun & Heq & Hlm & HW & Hdp); try done; [by apply walks_first|].
  rewrite Hrun, bind_Some_eq in Hrun0.
  destruct (proxBest 0 m (-1, 0)) as [b cursor] eqn:EB.
  destruct Hdp as [Hdp (j0 & v0 & Hj0 & Hv0)].
  pose proof (proxBest_spec m 0 (-1) 0) as HB. rewrite EB in HB. cbv zeta in HB. simpl in HB.
  destruct HB as (H1 & H2 & _ & _ & H5).
  { intros j v Hv. destruct (Hdp _ _ Hv) as [?|[? _]]; [by left|right; lia]. }
  { by left. } { lia. }
  assert (Hb1 : b ≠ -1) by by eapply H5.
  destruct H2 as [[? _]|(j & Hj & -> & _)]; [done|].
  destruct (Hdp _ _ Hj) as [?|(Hb & ps & x & Hback & Hx & Hcost)]; [done|].
  rewrite app_nil_r in Hback. rewrite reverse_cons in Hrun0. 
  replace (0 + Z.of_nat j) with (Z.of_nat j) in Hrun0 by lia.
  rewrite Hback, bind_Some_eq in Hrun0. injection Hrun0 as <- <-.
  destruct (HW (Z.of_nat j)) as (ps' & Hps' & Hch).
  { apply lookup_lt_Some in Hx. unfold zlen. lia. }
  rewrite app_nil_r, Hback in Hps'. injection Hps' as <-.
  rewrite reverse_app, reverse_cons, reverse_nil, reverse_involutive in Hch.
  split; [lia|]. split; [done|]. split; [done|].
  intros Hs Hno qs Hqs. inversion Hs as [|? ? Hsc Hsr]; subst.
  inversion Hqs as [|q ? qs' ? Hq Hqs']; subst.
  apply elem_of_list_lookup in Hq as [jq Hjq].
  destruct (forward_optimal rest [] cur m0 (strlen <$> tokens) [] [] m paths) with (j := jq) (mj := 0) (cj := q) (qs := qs')
    as (k & v & Hv & Hv1 & Hle); try done.
  { by apply walks_first. }
  { subst m0. apply lookup_replicate. split; [done|]. by eapply lookup_lt_Some. }
  destruct (H5 _ _ Hv Hv1). lia.
Qed.

Lemma proximity_realised locs tokens :
  locs ≠ [] → Forall (λ l, l ≠ []) locs → length tokens = length locs → small_inputs locs tokens →
  ∃ best tl, computeTokenProximity locs tokens = Some (best, tl) ∧
    0 <= best ∧ is_choice locs tl ∧ best = prox_cost (strlen <$> tokens) tl.
Proof.
  intros Hne HF Hlen Hsm. destruct (proximity_total locs tokens) as (best & tl & Hrun & Hch); [done..|].
  exists best, tl. split; [done|]. by destruct (proximity_spec locs tokens best tl) as (? & ? & ? & _).
Qed.

Lemma proximity_minimal locs tokens best tl :
  locs ≠ [] → Forall (λ l, l ≠ []) locs → length tokens = length locs → small_inputs locs tokens →
  Forall (StronglySorted Z.le) locs → no_overlap (strlen <$> tokens) locs →
  computeTokenProximity locs tokens = Some (best, tl) →
  is_choice locs tl ∧ best = prox_cost (strlen <$> tokens) tl ∧
  ∀ qs, is_choice locs qs → best <= prox_cost (strlen <$> tokens) qs.
Proof.
  intros Hne HF Hlen Hsm Hs Hno Hrun.
  destruct (proximity_spec locs tokens best tl) as (? & ? & ? & Hmin); [done..|]. auto.
Qed.

Lemma overlap_not_minimal :
  ∃ locs tokens best tl qs,
    Forall (StronglySorted Z.le) locs ∧ small_inputs locs tokens ∧
    computeTokenProximity locs tokens = Some (best, tl) ∧
    is_choice locs qs ∧ prox_cost (strlen <$> tokens) qs < best ∧
    locs = [[0]; [1; 2; 6]] ∧ tokens = ["abcdef"; "z"] ∧ best = 4 ∧ qs = [0; 6].
Proof.
  exists [[0]; [1; 2; 6]], ["abcdef"; "z"], 4. eexists. exists [0; 6].
  split; [repeat constructor; lia|]. split.
  { split; [repeat constructor; lia|]. split; [repeat constructor|vm_compute; done]. }
  split; [vm_compute; reflexivity|]. split; [repeat constructor; set_solver|].
  split; [vm_compute; done|]. done.
Qed.
