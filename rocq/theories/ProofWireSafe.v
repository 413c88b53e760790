(** Unmarshal always ends, and panics only on wild input (C109). *)
From Verif Require Import SpecWire ProofWire ProofWireOut ProofWireIn.

Lemma calm_sub p b q : calm (p ++ b ++ q) → calm b.
Proof.
  intros (H1 & H2 & H3). rewrite !Forall_app in H1. rewrite !zlen_app in H2.
  pose proof (zlen_nonneg p). pose proof (zlen_nonneg q). split; [tauto|split; [lia|]].
  intros p' q' ->. apply (H3 (p ++ p') (q' ++ q)). by rewrite <- !app_assoc.
Qed.
Lemma zslice_sub {A} (data b : list A) i j : zslice data i j = Some b →
  0 <= i <= j ∧ j <= zlen data ∧ zlen b = j - i ∧ ∃ p q, data = p ++ b ++ q ∧ zlen p = i.
Proof.
  unfold zslice. destruct (_ && _) eqn:E; [|done]. intros [= <-]. apply andb_true_iff in E as [E E3]. apply andb_true_iff in E as [E1 E2].
  apply Z.leb_le in E1, E2, E3. unfold zlen in *. split; [lia|]. split; [lia|]. split.
  { rewrite take_length, drop_length. lia. }
  exists (take (Z.to_nat i) data), (drop (Z.to_nat (j - i)) (drop (Z.to_nat i) data)). split.
  - by rewrite take_drop, take_drop.
  - rewrite take_length. lia.
Qed.
Lemma zslice_some {A} (data : list A) i j : 0 <= i <= j → j <= zlen data → is_Some (zslice data i j).
Proof.
  intros H1 H2. unfold zslice. rewrite !(proj2 (Z.leb_le _ _)) by lia. simpl. eauto.
Qed.

(** * Numbers *)
(** the bytes of a number: all but the last are at least 128 *)
Fixpoint form (bs : bytes) : Prop :=
  match bs with [] => False | [b] => b < 128 | b :: r => 128 <= b ∧ form r end.
Fixpoint val (bs : bytes) : Z := match bs with [] => 0 | b :: r => b `mod` 128 + 128 * val r end.
Lemma form_cons b r : r ≠ [] → form (b :: r) ↔ 128 <= b ∧ form r.
Proof. by destruct r. Qed.
Lemma val_nonneg bs : 0 <= val bs.
Proof. induction bs as [|b r IH]; simpl; [lia|]. pose proof (Z.mod_pos_bound b 128). lia. Qed.
Lemma val_lor b v s : 0 <= s → 0 <= v → Z.lor (Z.shiftl (b `mod` 128) s) (Z.shiftl v (s + 7)) = Z.shiftl (b `mod` 128 + 128 * v) s.
Proof.
  intros Hs Hv. pose proof (Z.mod_pos_bound b 128). rewrite <- (lor_split (b `mod` 128 + 128 * v) s Hs).
  rewrite (Z.mul_comm 128), Z.mod_add, Z.mod_mod, Z.div_add by lia. rewrite (Z.div_small (b `mod` 128)) by lia. f_equal.
Qed.
Lemma readVar_form trunc f data s acc i v j :
  cuts trunc → 0 <= s → readVar f trunc data s (trunc acc) i = Got v j →
  ∃ pre bs post, data = pre ++ bs ++ post ∧ zlen pre = i ∧ j = i + zlen bs ∧ form bs ∧ v = trunc (Z.lor acc (Z.shiftl (val bs) s)).
Proof.
  intros Hc. revert s acc i. induction f as [|f IH]; intros s acc i Hs; cbn [readVar]; [done|].
  destruct (64 <=? s); [done|]. destruct (zlen data <=? i) eqn:El; [done|].
  destruct (zget data i) as [b|] eqn:Eb; [|done].
  assert (Hsplit : ∃ pre post, data = pre ++ b :: post ∧ zlen pre = i).
  { pose proof (zget_lt _ _ _ Eb). apply zget_Some in Eb as [_ Eb]. exists (take (Z.to_nat i) data), (drop (S (Z.to_nat i)) data).
    split; [by rewrite take_drop_middle|]. unfold zlen in *. rewrite take_length. lia. }
  destruct Hsplit as (pre & post & -> & Hpre).
  rewrite land127, <- Hc. destruct (b <? 128) eqn:Ed.
  - intros [= <- <-]. exists pre, [b], post. apply Z.ltb_lt in Ed. simpl val. rewrite Z.mul_0_r, Z.add_0_r. done.
  - intros H. apply IH in H as (pre' & bs & post' & E & Hp & -> & Hf & ->); [|lia].
    apply Z.ltb_ge in Ed.
    assert (pre' = pre ++ [b] ∧ bs ++ post' = post) as [-> <-].
    { replace (pre ++ b :: post) with ((pre ++ [b]) ++ post) in E by (by rewrite <- app_assoc).
      apply app_inj_1 in E as [-> ->]; [done|]. rewrite app_length. simpl. unfold zlen in *. lia. }
    exists pre, (b :: bs), post'. split; [done|]. split; [done|]. split; [rewrite zlen_cons; lia|]. split.
    + apply form_cons; [by destruct bs|done].
    + simpl val. rewrite <- Z.lor_assoc, val_lor by (try lia; apply val_nonneg). done.
Qed.
Lemma readNum_form trunc data i v j :
  cuts trunc → trunc 0 = 0 → readNum trunc data i = Got v j →
  ∃ pre bs post, data = pre ++ bs ++ post ∧ zlen pre = i ∧ j = i + zlen bs ∧ form bs ∧ v = trunc (val bs).
Proof.
  intros Hc H0 H. unfold readNum in H.
  replace (readVar 11 trunc data 0 0 i) with (readVar 11 trunc data 0 (trunc 0) i) in H by (by rewrite H0).
  apply readVar_form in H as (pre & bs & post & H1 & H2 & H3 & H4 & H5); [|done..].
  rewrite Z.lor_0_l, Z.shiftl_0_r in H5. eauto 10.
Qed.
Lemma form_len bs : form bs → 1 <= zlen bs.
Proof. destruct bs; [done|]. intros _. rewrite zlen_cons. pose proof (zlen_nonneg bs). lia. Qed.
Lemma readVar_ends trunc f data s v i : 0 <= i → 64 <= s + 7 * (Z.of_nat f - 1) → (0 < f)%nat →
  match readVar f trunc data s v i with Boom | More => False | _ => True end.
Proof.
  revert s v i. induction f as [|f IH]; intros s v i Hi Hs Hf; [lia|]. cbn [readVar].
  destruct (64 <=? s) eqn:E; [done|]. apply Z.leb_gt in E. destruct (zlen data <=? i) eqn:El; [done|]. apply Z.leb_gt in El.
  destruct (zget_in data i) as [b ->]; [lia|]. destruct (b <? 128); [done|]. apply IH; lia.
Qed.
Lemma readNum_ends trunc data i : 0 <= i → match readNum trunc data i with Boom | More => False | _ => True end.
Proof. intros Hi. apply readVar_ends; lia. Qed.
Lemma readNum_neg trunc data i : i < 0 → readNum trunc data i = Boom.
Proof.
  intros Hi. unfold readNum. cbn [readVar]. cbn [Z.leb Z.compare]. pose proof (zlen_nonneg data).
  rewrite (proj2 (Z.leb_gt _ _)) by lia. unfold zget. by rewrite (proj2 (Z.ltb_lt _ _)).
Qed.
(** at most ten bytes *)
Lemma readNum_pos trunc data i v j : cuts trunc → trunc 0 = 0 → readNum trunc data i = Got v j → i < j <= zlen data.
Proof.
  intros Hc H0 H. apply readNum_form in H as (pre & bs & post & -> & Hp & -> & Hf & _); [|done..].
  apply form_len in Hf. rewrite !zlen_app. pose proof (zlen_nonneg post). lia.
Qed.

Lemma val_bound bs : val bs < 128 ^ zlen bs.
Proof.
  induction bs as [|b r IH]; simpl val; [done|]. rewrite zlen_cons, Z.pow_add_r by (try lia; apply zlen_nonneg).
  pose proof (Z.mod_pos_bound b 128). lia.
Qed.
Lemma val_small bs : (length bs <= 8)%nat → val bs < 2^56.
Proof.
  intros Hl. pose proof (val_bound bs). assert (128 ^ zlen bs <= 128 ^ 8); [|lia].
  apply Z.pow_le_mono_r; unfold zlen; lia.
Qed.
Lemma big_form bs : form bs → Forall (λ b, 0 <= b < 256) bs → 2^63 - 2^28 <= int64 (val bs) →
  ∃ p q, bs = p ++ [255; 255; 255; 255] ++ q.
Proof.
  intros Hf Hb Hv.
  destruct (decide (length bs <= 8)%nat) as [Hl|Hl].
  { pose proof (val_small bs Hl). pose proof (val_nonneg bs). rewrite int64_id in Hv by lia. lia. }
  destruct bs as [|b0 [|b1 [|b2 [|b3 [|b4 [|b5 [|b6 [|b7 [|b8 r]]]]]]]]]; [simpl in Hl; lia..|].
  change (128 <= b0 ∧ 128 <= b1 ∧ 128 <= b2 ∧ 128 <= b3 ∧ 128 <= b4 ∧ 128 <= b5 ∧ 128 <= b6 ∧ 128 <= b7 ∧ form (b8 :: r)) in Hf.
  destruct Hf as (F0 & F1 & F2 & F3 & F4 & F5 & F6 & F7 & _).
  cbn [val] in Hv. pose proof (val_nonneg (b8 :: r)) as H8. cbn [val] in H8. set (V := b8 `mod` 128 + 128 * val r) in *.
  exists [b0; b1; b2; b3], (b8 :: r). simpl.
  repeat (let H := fresh "G" in apply Forall_cons in Hb as [H Hb]).
  assert (Hm : ∀ b, 0 <= b < 256 → 128 <= b → b `mod` 128 = b - 128).
  { intros b H1 H2. symmetry. apply (Z.mod_unique b 128 1 (b - 128)); lia. }
  rewrite !Hm in Hv by done. clear Hm.
  set (X := b0 - 128 + 128 * (b1 - 128 + 128 * (b2 - 128 + 128 * (b3 - 128 + 128 * (b4 - 128 + 128 * (b5 - 128 + 128 * (b6 - 128 + 128 * (b7 - 128 + 128 * V)))))))) in *.
  assert (∃ q, X = int64 X + 2^64 * q) as [q Hq].
  { exists ((X + 2^63) / 2^64). unfold int64. pose proof (Z.div_mod (X + 2^63) (2^64)). lia. }
  pose proof (int64_range X) as Hr. set (y := int64 X) in *. clearbody y.
  set (lo := b0 - 128 + 128 * (b1 - 128 + 128 * (b2 - 128 + 128 * (b3 - 128)))).
  set (M := b4 - 128 + 128 * (b5 - 128 + 128 * (b6 - 128 + 128 * (b7 - 128)))).
  assert (X = lo + 2^28 * M + 2^56 * V) by (unfold X, lo, M; lia).
  assert (0 <= lo < 2^28) by (unfold lo; lia). assert (0 <= M < 2^28) by (unfold M; lia).
  assert (M = 2^28 - 1) by lia.
  assert (b7 = 255) as -> by (unfold M in *; lia). assert (b6 = 255) as -> by (unfold M in *; lia).
  assert (b5 = 255) as -> by (unfold M in *; lia). assert (b4 = 255) as -> by (unfold M in *; lia). done.
Qed.
Lemma int64_u64 x : int64 (u64 x) = int64 x.
Proof. unfold int64, u64. by rewrite Zplus_mod_idemp_l. Qed.
Lemma int64_int64 x : int64 (int64 x) = int64 x.
Proof. apply int64_id, int64_range. Qed.
Lemma calm_number trunc data i v j : trunc = u64 ∨ trunc = int64 → calm data → readNum trunc data i = Got v j →
  int64 v < 2^63 - 2^28.
Proof.
  intros Ht (H1 & H2 & H3) H.
  apply readNum_form in H as (pre & bs & post & -> & Hp & -> & Hf & ->);
    [|destruct Ht as [-> | ->]; [apply cuts_u64|apply cuts_int64]|by destruct Ht as [-> | ->]].
  assert (int64 (trunc (val bs)) = int64 (val bs)) as ->.
  { destruct Ht as [-> | ->]; [apply int64_u64|apply int64_int64]. }
  destruct (decide (int64 (val bs) < 2^63 - 2^28)) as [|Hn]; [done|].
  rewrite !Forall_app in H1. destruct (big_form bs Hf) as (p & q & ->); [tauto|lia|].
  exfalso. apply (H3 (pre ++ p) (q ++ post)). by rewrite <- !app_assoc.
Qed.

(** * Bytes *)
Lemma readBytes_spec trunc data i : trunc = u64 ∨ trunc = int64 → zlen data < 2^62 → 0 <= i →
  match readBytes trunc data i with
  | Got b j => i < j <= zlen data ∧ zlen b < 2^62 ∧ (calm data → calm b)
  | Bad _ => True | Boom => ¬ calm data | More => False
  end.
Proof.
  intros Ht Hl Hi. unfold readBytes. pose proof (readNum_ends trunc data i Hi) as He.
  destruct (readNum trunc data i) as [n j|n| |] eqn:E; [|done..].
  pose proof (calm_number trunc data i n j Ht) as Hcalm.
  assert (i < j <= zlen data) as Hj.
  { destruct Ht as [-> | ->]; eapply readNum_pos; try exact E; [apply cuts_u64|done|apply cuts_int64|done]. }
  destruct (int64 n <? 0) eqn:En; [done|]. apply Z.ltb_ge in En.
  destruct (zlen data <? int64 (j + int64 n)) eqn:Ep; [done|]. apply Z.ltb_ge in Ep.
  destruct (zslice data j (int64 (j + int64 n))) as [b|] eqn:Es.
  - apply zslice_sub in Es as (H1 & H2 & H3 & p & q & -> & Hp).
    split; [lia|]. split; [rewrite !zlen_app in Hl; pose proof (zlen_nonneg p); pose proof (zlen_nonneg q); lia|]. apply calm_sub.
  - intros Hc. specialize (Hcalm Hc E). destruct Hc as (_ & Hc & _). rewrite int64_id in Ep, Es by lia.
    destruct (zslice_some data j (j + int64 n)) as [b Hb]; [lia|lia|]. by rewrite Es in Hb.
Qed.

(** * skipDoc *)
Definition skips (data : bytes) (r : rd unit) : Prop :=
  match r with
  | Got _ n => - 2^63 <= n < 2^63 ∧ (1 <= n ∨ n < - 2^62) ∧ (calm data → 1 <= n < 2^63 - 2^27)
  | Bad _ => True | Boom => ¬ calm data | More => False
  end.
Lemma skipGroup_spec skip data : zlen data < 2^62 → calm data ∨ ¬ calm data →
  (∀ p d, data = p ++ d → p ≠ [] → 0 < zlen d → skips d (skip d)) →
  ∀ fuel i, (0 < fuel)%nat → (0 < i → zlen data - i < Z.of_nat fuel) → i ≠ 0 → (calm data → 0 < i) → - 2^63 <= i →
  match skipGroup fuel skip data i with
  | Got _ n => 1 <= n <= zlen data | Bad _ => True | Boom => ¬ calm data | More => False end.
Proof.
  intros Hl Hdec Hsk. induction fuel as [|fuel IH]; intros i Hf Hfu Hi Hc Hlow; [lia|]. cbn [skipGroup].
  destruct (decide (i < 0)) as [Hneg|Hpos].
  { rewrite readNum_neg by done. intros Hcm. specialize (Hc Hcm). lia. }
  pose proof (readNum_ends u64 data i ltac:(lia)) as He.
  destruct (readNum u64 data i) as [w j|w| |] eqn:E; [|done..].
  assert (i < j <= zlen data) as Hj by (eapply readNum_pos; [apply cuts_u64|done|exact E]).
  destruct (Z.land w 7 =? 4); [lia|].
  destruct (zslice data i (zlen data)) as [d|] eqn:Ed.
  2: { destruct (zslice_some data i (zlen data)) as [b Hb]; [lia|lia|]. by rewrite Ed in Hb. }
  apply zslice_sub in Ed as (_ & _ & Hd & p & q & Hpq & Hp).
  assert (q = []) as ->. { destruct q as [|x q]; [done|]. rewrite Hpq, !zlen_app, zlen_cons in Hd. pose proof (zlen_nonneg q). lia. }
  rewrite app_nil_r in Hpq.
  specialize (Hsk p d Hpq ltac:(intros ->; change (zlen (@nil Z)) with 0 in Hp; lia) ltac:(lia)).
  assert (Hcd : calm data → calm d). { rewrite Hpq. intros H. apply (calm_sub p d []). by rewrite app_nil_r. }
  destruct (skip d) as [[] n|[]| |]; simpl in Hsk; [|done|tauto|done].
  destruct Hsk as (Hr & Hn & Hcn).
  assert (int64 (i + n) = i + n ∨ int64 (i + n) < 0 ∧ ¬ calm data) as Hw.
  { destruct (decide (i + n < 2^63)); [left; apply int64_id; lia|right]. split.
    - unfold int64. rewrite <- (Z.mod_unique (i + n + 2^63) (2^64) 1 (i + n - 2^63)) by lia. lia.
    - intros Hcm. specialize (Hcn (Hcd Hcm)). destruct Hcm as (_ & Hcm & _). lia. }
  pose proof (int64_range (i + n)).
  apply IH; [lia|destruct Hw as [-> |[Hw _]]; lia|destruct Hw as [-> |[Hw _]]; lia| |lia].
  intros Hcm. specialize (Hcn (Hcd Hcm)). destruct Hw as [-> |[_ Hw]]; [lia|tauto].
Qed.
Lemma calm_dec data : calm data ∨ ¬ calm data.
Proof.
  assert (Hd : ∀ l : bytes, (∃ p q, l = p ++ [255; 255; 255; 255] ++ q) ∨ ¬ ∃ p q, l = p ++ [255; 255; 255; 255] ++ q).
  { induction l as [|b l IH].
    - right. intros (p & q & H). by destruct p.
    - destruct IH as [(p & q & ->)|IH]; [left; by exists (b :: p), q|].
      destruct (decide (take 4 (b :: l) = [255; 255; 255; 255])) as [H|H].
      + left. exists [], (drop 4 (b :: l)). rewrite <- H. change ([] ++ ?x) with x. by rewrite take_drop.
      + right. intros (p & q & E). destruct p as [|c p].
        * apply H. rewrite E. done.
        * injection E as -> ->. apply IH. by exists p, q. }
  unfold calm. destruct (decide (Forall (λ b, 0 <= b < 256) data)); [|tauto].
  destruct (decide (zlen data < 2^27)); [|tauto]. destruct (Hd data) as [(p & q & ->)|Hn].
  - right. intros (_ & _ & H). by apply (H p q).
  - left. split; [done|]. split; [done|]. intros p q E. apply Hn. by exists p, q.
Qed.
Lemma skipD_spec fuel : ∀ data, (length data < fuel)%nat → 0 < zlen data → zlen data < 2^62 → skips data (skipD fuel data).
Proof.
  induction fuel as [|fuel IH]; intros data Hf Hp Hl; [lia|]. cbn [skipD].
  rewrite (proj2 (Z.ltb_lt _ _)) by done.
  pose proof (readNum_ends u64 data 0 ltac:(lia)) as He.
  destruct (readNum u64 data 0) as [w i|w| |] eqn:E; [|done..].
  assert (0 < i <= zlen data) as Hi by (eapply readNum_pos; [apply cuts_u64|done|exact E]).
  destruct (Z.land w 7 =? 0).
  { pose proof (readNum_ends u64 data i ltac:(lia)) as He2.
    destruct (readNum u64 data i) as [x j|x| |] eqn:E2; [|done..].
    assert (i < j <= zlen data) as Hj by (eapply readNum_pos; [apply cuts_u64|done|exact E2]).
    simpl. split; [lia|]. split; [lia|]. intros (_ & Hc & _). lia. }
  destruct (Z.land w 7 =? 1).
  { simpl. rewrite int64_id by lia. split; [lia|]. split; [lia|]. intros (_ & Hc & _). lia. }
  destruct (Z.land w 7 =? 2).
  { pose proof (readNum_ends int64 data i ltac:(lia)) as He2.
    destruct (readNum int64 data i) as [x j|x| |] eqn:E2; [|done..].
    assert (i < j <= zlen data) as Hj by (eapply readNum_pos; [apply cuts_int64|done|exact E2]).
    destruct (x <? 0) eqn:Ex; [done|]. apply Z.ltb_ge in Ex.
    assert (Hx : int64 x = x ∧ x < 2^63).
    { apply readNum_form in E2 as (pre & bs & post & _ & _ & _ & _ & ->); [|apply cuts_int64|done].
      split; [apply int64_int64|]. apply int64_range. }
    pose proof (calm_number int64 data i x j (or_intror eq_refl)) as Hcalm.
    simpl. pose proof (int64_range (j + x)). split; [lia|]. split.
    - destruct (decide (j + x < 2^63)); [left; rewrite int64_id; lia|right].
      unfold int64. rewrite <- (Z.mod_unique (j + x + 2^63) (2^64) 1 (j + x - 2^63)) by lia. lia.
    - intros Hc. specialize (Hcalm Hc E2). destruct Hx as [Hx _]. rewrite Hx in Hcalm. destruct Hc as (_ & Hc & _).
      rewrite int64_id by lia. lia. }
  destruct (Z.land w 7 =? 3).
  { pose proof (skipGroup_spec (skipD fuel) data Hl (calm_dec data)) as Hg.
    specialize (Hg ltac:(intros p d -> Hne Hd; apply IH; [rewrite app_length in Hf; destruct p; [done|simpl in Hf; lia]|done|rewrite zlen_app in Hl; pose proof (zlen_nonneg p); lia])).
    specialize (Hg (S (length data)) i ltac:(lia) ltac:(unfold zlen; lia) ltac:(lia) ltac:(lia) ltac:(lia)).
    destruct (skipGroup (S (length data)) (skipD fuel) data i) as [[] n|[]| |]; [|done..].
    simpl. split; [lia|]. split; [lia|]. intros (_ & Hc & _). lia. }
  destruct (Z.land w 7 =? 4).
  { simpl. split; [lia|]. split; [lia|]. intros (_ & Hc & _). lia. }
  destruct (Z.land w 7 =? 5); [|done].
  simpl. rewrite int64_id by lia. split; [lia|]. split; [lia|]. intros (_ & Hc & _). lia.
Qed.
Lemma skipDoc_spec data : 0 < zlen data → zlen data < 2^62 → skips data (skipDoc data).
Proof. apply skipD_spec. lia. Qed.

(** * Messages *)
Definition fine {M} (data : bytes) (r : um M) : Prop :=
  match r with UMore => False | UBoom => ¬ calm data | _ => True end.
Definition good {M} (data : bytes) (j : Z) (r : rd M) : Prop :=
  match r with
  | Got _ k => (j < k ∨ k < 0) ∧ (calm data → 0 <= k)
  | Bad _ => True | Boom => ¬ calm data | More => False
  end.
Section Safe.
  Context {M : Type} (field : Z → Z → bytes → Z → M → option (rd M)) (keep : bytes → M → M).
  Context (Hfield : ∀ num wt data j m r, zlen data < 2^62 → 0 <= j → field num wt data j m = Some r → good data j r).
  Lemma fields_fine data : zlen data < 2^62 → ∀ fuel i m, (0 < fuel)%nat → (0 <= i → zlen data - i < Z.of_nat fuel) → (calm data → 0 <= i) →
    fine data (fields field keep fuel data i m).
  Proof.
    intros Hl. induction fuel as [|fuel IH]; intros i m Hf Hfu Hc; [lia|]. cbn [fields].
    destruct (i <? zlen data) eqn:Ei; [|by destruct (zlen data <? i)]. apply Z.ltb_lt in Ei.
    destruct (decide (i < 0)) as [Hneg|Hpos].
    { rewrite readNum_neg by done. intros Hcm. specialize (Hc Hcm). lia. }
    pose proof (readNum_ends u64 data i ltac:(lia)) as He.
    destruct (readNum u64 data i) as [w j|w| |] eqn:E; [|done..].
    assert (i < j <= zlen data) as Hj by (eapply readNum_pos; [apply cuts_u64|done|exact E]).
    destruct (Z.land w 7 =? 4); [done|]. destruct (int32 (Z.shiftr w 3) <=? 0); [done|].
    destruct (field (int32 (Z.shiftr w 3)) (Z.land w 7) data j m) as [r|] eqn:Ef.
    - apply Hfield in Ef; [|lia..]. destruct r as [m' k|m'| |]; [|done..]. destruct Ef as [Hk Hck].
      apply IH; [lia|lia|done].
    - destruct (zslice data i (zlen data)) as [d|] eqn:Ed.
      2: { destruct (zslice_some data i (zlen data)) as [b Hb]; [lia|lia|]. by rewrite Ed in Hb. }
      apply zslice_sub in Ed as (_ & _ & Hd & p & q & Hpq & Hp).
      assert (Hcd : calm data → calm d). { rewrite Hpq. apply calm_sub. }
      pose proof (skipDoc_spec d ltac:(lia) ltac:(lia)) as Hs.
      destruct (skipDoc d) as [[] n|[]| |]; simpl in Hs; [|done|intros H; apply Hs, Hcd, H|done].
      destruct Hs as (Hr & Hn & Hcn).
      destruct (n <? 0) eqn:En; [done|]. apply Z.ltb_ge in En.
      destruct (zlen data <? int64 (i + n)) eqn:Ek; [done|]. apply Z.ltb_ge in Ek.
      destruct (zslice data i (int64 (i + n))) as [b|] eqn:Es.
      + apply zslice_sub in Es as (H1 & H2 & _).
        assert (int64 (i + n) = i + n) as Hw.
        { destruct (decide (i + n < 2^63)); [apply int64_id; lia|]. exfalso.
          unfold int64 in H1. rewrite <- (Z.mod_unique (i + n + 2^63) (2^64) 1 (i + n - 2^63)) in H1 by lia. lia. }
        rewrite Hw in *. apply IH; lia.
      + intros Hcm. specialize (Hcn (Hcd Hcm)). destruct Hcm as (_ & Hcm & _). rewrite int64_id in Es, Ek by lia.
        destruct (zslice_some data i (i + n)) as [b Hb]; [lia|lia|]. by rewrite Es in Hb.
  Qed.
  Lemma unmarshal_fine m data : zlen data < 2^62 → fine data (unmarshal field keep m data).
  Proof. intros Hl. apply fields_fine; [done|lia|unfold zlen; lia|lia]. Qed.
End Safe.
Section SafeKinds.
  Context {M : Type} (data : bytes) (wt i : Z) (m : M) (Hl : zlen data < 2^62) (Hi : 0 <= i).
  Lemma strCase_good set : good data i (strCase data wt i m set).
  Proof.
    unfold strCase. destruct (wt =? 2); [|done]. pose proof (readBytes_spec u64 data i (or_introl eq_refl) Hl Hi) as H.
    destruct (readBytes u64 data i); simpl in *; try done. lia.
  Qed.
  Lemma bytesCase_good set : good data i (bytesCase data wt i m set).
  Proof.
    unfold bytesCase. destruct (wt =? 2); [|done]. pose proof (readBytes_spec int64 data i (or_intror eq_refl) Hl Hi) as H.
    destruct (readBytes int64 data i); simpl in *; try done. lia.
  Qed.
  Lemma readNum_good {A} trunc (f : Z → A) (g : Z → A) : cuts trunc → trunc 0 = 0 →
    good data i (match readNum trunc data i with Got v j => Got (f v) j | Bad v => Bad (g v) | Boom => Boom | More => More end).
  Proof.
    intros Hc H0. pose proof (readNum_ends trunc data i Hi) as He. destruct (readNum trunc data i) as [v j|v| |] eqn:E; try done.
    apply readNum_pos in E; [|done..]. simpl. lia.
  Qed.
  Lemma numCase_good trunc set : trunc = int32 ∨ trunc = int64 → good data i (numCase data wt i m trunc set).
  Proof.
    intros Ht. unfold numCase. destruct (wt =? 0); [|done].
    destruct Ht as [-> | ->]; apply readNum_good; [apply cuts_int32|done|apply cuts_int64|done].
  Qed.
  Lemma flagCase_good set : good data i (flagCase data wt i m set).
  Proof.
    unfold flagCase. destruct (wt =? 0); [|done].
    apply (readNum_good int64 (λ v, set (negb (v =? 0))) (λ _, m)); [apply cuts_int64|done].
  Qed.
  Lemma msgCase_good {N} (dec : N → bytes → um N) from set : (∀ x b, zlen b < 2^62 → fine b (dec x b)) →
    good data i (msgCase data wt i m dec from set).
  Proof.
    intros Hd. unfold msgCase. destruct (wt =? 2); [|done]. pose proof (readBytes_spec int64 data i (or_intror eq_refl) Hl Hi) as H.
    destruct (readBytes int64 data i) as [b j|b| |]; try done. destruct H as (H1 & H2 & H3). specialize (Hd from b H2).
    destruct (dec from b); simpl in *; [lia|done|tauto|done].
  Qed.
End SafeKinds.
Tactic Notation "fields_good" reference(g) :=
  clear; intros num wt data j m r Hl Hj; destruct m; unfold g; cbv beta iota;
  repeat (match goal with |- (if ?c then _ else _) = _ → _ => destruct c end); [..|intros; discriminate];
  intros [= <-];
  lazymatch goal with
  | |- good _ _ (strCase _ _ _ _ _) => apply strCase_good; assumption
  | |- good _ _ (bytesCase _ _ _ _ _) => apply bytesCase_good; assumption
  | |- good _ _ (flagCase _ _ _ _ _) => apply flagCase_good; assumption
  | |- good _ _ (numCase _ _ _ _ _ _) => apply numCase_good; [assumption|auto]
  | |- _ => idtac
  end.
Lemma heart_fine m data : zlen data < 2^62 → fine data (Heart_Unmarshal m data).
Proof. apply unmarshal_fine. fields_good Heart_field. Qed.
Lemma reply_fine m data : zlen data < 2^62 → fine data (Reply_Unmarshal m data).
Proof. apply unmarshal_fine. fields_good Reply_field. Qed.
Lemma del_fine m data : zlen data < 2^62 → fine data (Del_Unmarshal m data).
Proof. apply unmarshal_fine. fields_good Del_field. Qed.
Lemma expr_fine m data : zlen data < 2^62 → fine data (Expr_Unmarshal m data).
Proof. apply unmarshal_fine. fields_good Expr_field. Qed.
Lemma logic_fine m data : zlen data < 2^62 → fine data (Logic_Unmarshal m data).
Proof. apply unmarshal_fine. fields_good Logic_field. apply msgCase_good; [assumption..|]. apply expr_fine. Qed.
Lemma attri_fine m data : zlen data < 2^62 → fine data (Attri_Unmarshal m data).
Proof. apply unmarshal_fine. fields_good Attri_field. Qed.
Lemma text_fine m data : zlen data < 2^62 → fine data (Text_Unmarshal m data).
Proof. apply unmarshal_fine. fields_good Text_field. apply msgCase_good; [assumption..|]. apply attri_fine. Qed.
Lemma answer_fine m data : zlen data < 2^62 → fine data (Answer_Unmarshal m data).
Proof. apply unmarshal_fine. fields_good Answer_field. apply msgCase_good; [assumption..|]. apply text_fine. Qed.

Lemma packed_good data post : zlen data < 2^62 → post <= zlen data → ∀ fuel i ls, (0 < fuel)%nat → 0 <= i → zlen data - i < Z.of_nat fuel →
  match packed fuel data post i ls with Got _ k => i <= k | Bad _ => True | _ => False end.
Proof.
  intros Hl Hp. induction fuel as [|fuel IH]; intros i ls Hf Hi Hfu; [lia|]. cbn [packed].
  destruct (i <? post) eqn:E; [|lia]. apply Z.ltb_lt in E.
  pose proof (readNum_ends int32 data i Hi) as He. destruct (readNum int32 data i) as [v j|v| |] eqn:Er; try done.
  apply readNum_pos in Er; [|apply cuts_int32|done]. specialize (IH j (ls ++ [v]) ltac:(lia) ltac:(lia) ltac:(lia)).
  destruct (packed fuel data post j (ls ++ [v])); try done. lia.
Qed.
Lemma tok_fine m data : zlen data < 2^62 → fine data (Tok_Unmarshal m data).
Proof.
  apply unmarshal_fine. fields_good Tok_field.
  destruct (wt =? 0).
  { apply (readNum_good data j Hj int32 (λ v, mkWTok wtText (wtLocs ++ [v]) wtRest) (λ _, mkWTok wtText wtLocs wtRest)); [apply cuts_int32|done]. }
  destruct (wt =? 2); [|done].
  pose proof (readNum_ends int64 data j Hj) as He. destruct (readNum int64 data j) as [v k|v| |] eqn:Er; try done.
  apply readNum_pos in Er; [|apply cuts_int64|done]. destruct (v <? 0); [done|].
  destruct (zlen data <? int64 (k + v)) eqn:Ep; [done|]. apply Z.ltb_ge in Ep.
  pose proof (packed_good data _ Hl Ep (S (length data)) k wtLocs ltac:(lia) ltac:(lia) ltac:(unfold zlen; lia)) as Hp.
  cbn [ModelWire.wtLocs]. cbn [packed] in Hp. destruct (if k <? _ then _ else _); simpl; try done. lia.
Qed.
Lemma doc_fine m data : zlen data < 2^62 → fine data (Doc_Unmarshal m data).
Proof. apply unmarshal_fine. fields_good Doc_field. apply msgCase_good; [assumption..|]. apply tok_fine. Qed.

Lemma entry_good data post : zlen data < 2^62 → post <= zlen data → ∀ fuel i k v, (0 < fuel)%nat → (0 <= i → zlen data - i < Z.of_nat fuel) → (calm data → 0 <= i) →
  match entry fuel data post i k v with Got _ _ | Bad _ => True | Boom => ¬ calm data | More => False end.
Proof.
  intros Hl Hpost. induction fuel as [|fuel IH]; intros i k v Hf Hfu Hc; [lia|]. cbn [entry].
  destruct (i <? post) eqn:Ei; [|done]. apply Z.ltb_lt in Ei.
  destruct (decide (i < 0)) as [Hneg|Hpos].
  { rewrite readNum_neg by done. intros Hcm. specialize (Hc Hcm). lia. }
  pose proof (readNum_ends u64 data i ltac:(lia)) as He.
  destruct (readNum u64 data i) as [w j|w| |] eqn:E; [|done..].
  assert (i < j <= zlen data) as Hj by (eapply readNum_pos; [apply cuts_u64|done|exact E]).
  destruct (int32 (Z.shiftr w 3) =? 1).
  { pose proof (readBytes_spec u64 data j (or_introl eq_refl) Hl ltac:(lia)) as H.
    destruct (readBytes u64 data j) as [b p|b| |]; try done. apply IH; lia. }
  destruct (int32 (Z.shiftr w 3) =? 2).
  { pose proof (readNum_ends int64 data j ltac:(lia)) as He2. destruct (readNum int64 data j) as [x p|x| |] eqn:Er; try done.
    apply readNum_pos in Er; [|apply cuts_int64|done]. apply IH; lia. }
  destruct (zslice data i (zlen data)) as [d|] eqn:Ed.
  2: { destruct (zslice_some data i (zlen data)) as [b Hb]; [lia|lia|]. by rewrite Ed in Hb. }
  apply zslice_sub in Ed as (_ & _ & Hd & p & q & Hpq & Hp).
  assert (Hcd : calm data → calm d). { rewrite Hpq. apply calm_sub. }
  pose proof (skipDoc_spec d ltac:(lia) ltac:(lia)) as Hs.
  destruct (skipDoc d) as [[] n|[]| |]; simpl in Hs; [|done|intros H; apply Hs, Hcd, H|done].
  destruct Hs as (Hr & Hn & Hcn).
  destruct (n <? 0) eqn:En; [done|]. apply Z.ltb_ge in En.
  destruct (post <? int64 (i + n)) eqn:Ek; [done|]. apply Z.ltb_ge in Ek.
  assert (int64 (i + n) = i + n ∨ int64 (i + n) < 0 ∧ ¬ calm data) as Hw.
  { destruct (decide (i + n < 2^63)); [left; apply int64_id; lia|right]. split.
    - unfold int64. rewrite <- (Z.mod_unique (i + n + 2^63) (2^64) 1 (i + n - 2^63)) by lia. lia.
    - intros Hcm. specialize (Hcn (Hcd Hcm)). destruct Hcm as (_ & Hcm & _). lia. }
  apply IH; [lia|destruct Hw as [-> |[Hw _]]; lia|]. destruct Hw as [-> |[_ Hw]]; [lia|tauto].
Qed.
Lemma search_fine m data : zlen data < 2^62 → fine data (Search_Unmarshal m data).
Proof.
  apply unmarshal_fine. fields_good Search_field.
  2: { apply msgCase_good; [assumption..|]. apply logic_fine. }
  destruct (wt =? 2); [|done].
  pose proof (readNum_ends int64 data j Hj) as He. destruct (readNum int64 data j) as [v k|v| |] eqn:Er; try done.
  pose proof (calm_number int64 data j v k (or_intror eq_refl)) as Hcalm.
  assert (Hv : int64 v = v).
  { apply readNum_form in Er as (pre & bs & ps & _ & _ & _ & _ & ->); [|apply cuts_int64|done]. apply int64_int64. }
  pose proof Er as Er2. apply readNum_pos in Er2; [|apply cuts_int64|done]. destruct (v <? 0) eqn:Ev; [done|]. apply Z.ltb_ge in Ev.
  destruct (zlen data <? int64 (k + v)) eqn:Ep; [done|]. apply Z.ltb_ge in Ep.
  pose proof (entry_good data _ Hl Ep (S (length data)) k "" false ltac:(lia) ltac:(unfold zlen; lia) ltac:(lia)) as Hp.
  cbn [entry] in Hp. destruct (if k <? _ then _ else _) as [[a b] x|x| |]; try done. simpl.
  pose proof (int64_range v). assert (v < 2^63) by lia. split.
  - destruct (decide (k + v < 2^63)); [left; rewrite int64_id; lia|right].
    unfold int64. rewrite <- (Z.mod_unique (k + v + 2^63) (2^64) 1 (k + v - 2^63)) by lia. lia.
  - intros Hc. specialize (Hcalm Hc Er). rewrite Hv in Hcalm. destruct Hc as (_ & Hc & _). rewrite int64_id by lia. lia.
Qed.
