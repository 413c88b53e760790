(** The order on score vectors. *)
From Coq Require Import SpecFloat.
From Verif Require Import ModelRanker SpecRank.

(** * Keys of floats *)
Notation K := (Z * Z * Z)%type.
Definition key (x : F) : K :=
  match x with
  | S754_nan => (0, 0, 0)
  | S754_infinity true => (-2, 0, 0)
  | S754_infinity false => (2, 0, 0)
  | S754_zero _ => (0, 0, 0)
  | S754_finite true m e => (-1, - e, - Zpos m)
  | S754_finite false m e => (1, e, Zpos m)
  end.
Definition klt (a b : K) : Prop :=
  a.1.1 < b.1.1 ∨ a.1.1 = b.1.1 ∧ (a.1.2 < b.1.2 ∨ a.1.2 = b.1.2 ∧ a.2 < b.2).
Definition is_num (x : F) : Prop := f_eqb x x = true.

Lemma compare_key x y : is_num x → is_num y →
  match SFcompare x y with
  | Some Lt => klt (key x) (key y)
  | Some Gt => klt (key y) (key x)
  | Some Eq => key x = key y
  | None => False
  end.
Proof.
  unfold is_num, f_eqb, SFeqb. unfold klt.
  destruct x as [sx|[|]| |[|] mx ex], y as [sy|[|]| |[|] my ey]; cbn [SFcompare key fst snd]; try done; intros _ _;
    try lia; try done.
  - destruct (Z.compare_spec ex ey) as [->|H|H]; cbn [fst snd]; try lia.
    change (Pos.compare_cont Eq mx my) with (Pos.compare mx my).
    destruct (Pos.compare_spec mx my) as [->|H|H]; cbn [CompOpp fst snd]; [done|lia|lia].
  - destruct (Z.compare_spec ex ey) as [->|H|H]; cbn [fst snd]; try lia.
    change (Pos.compare_cont Eq mx my) with (Pos.compare mx my).
    destruct (Pos.compare_spec mx my) as [->|H|H]; cbn [fst snd]; [done|lia|lia].
Qed.

Lemma klt_irrefl a : ¬ klt a a.
Proof. unfold klt. lia. Qed.
Lemma klt_trans a b c : klt a b → klt b c → klt a c.
Proof. unfold klt. lia. Qed.
Lemma klt_trich (a b : K) : klt a b ∨ a = b ∨ klt b a.
Proof.
  destruct a as [[a1 a2] a3], b as [[b1 b2] b3]. unfold klt. cbn [fst snd].
  destruct (Z.lt_trichotomy a1 b1) as [H|[->|H]]; [lia| |lia].
  destruct (Z.lt_trichotomy a2 b2) as [H|[->|H]]; [lia| |lia].
  destruct (Z.lt_trichotomy a3 b3) as [H|[->|H]]; [lia| |lia]. by right; left.
Qed.
Lemma klt_asym a b : klt a b → ¬ klt b a.
Proof. unfold klt. lia. Qed.

Lemma ltb_key x y : is_num x → is_num y → f_ltb x y = true ↔ klt (key x) (key y).
Proof.
  intros Hx Hy. pose proof (compare_key x y Hx Hy) as H. unfold f_ltb, SFltb.
  destruct (SFcompare x y) as [[| |]|]; [..|done].
  - rewrite H. split; [done|]. by intros ?%klt_irrefl.
  - done.
  - split; [done|]. intros ?. by apply klt_asym in H.
Qed.
Lemma eqb_key x y : is_num x → is_num y → f_eqb x y = true ↔ key x = key y.
Proof.
  intros Hx Hy. pose proof (compare_key x y Hx Hy) as H. unfold f_eqb, SFeqb.
  destruct (SFcompare x y) as [[| |]|]; [done|..|done].
  - split; [done|]. intros E. rewrite E in H. by apply klt_irrefl in H.
  - split; [done|]. intros E. rewrite E in H. by apply klt_irrefl in H.
Qed.
Lemma gtb_key x y : is_num x → is_num y → f_gtb x y = true ↔ klt (key y) (key x).
Proof. intros Hx Hy. apply (ltb_key y x Hy Hx). Qed.

(** * Lists of keys, best first *)
Fixpoint kabove (a b : list K) : Prop :=
  match a, b with
  | x :: a', y :: b' => klt y x ∨ x = y ∧ kabove a' b'
  | _ :: _, [] => True
  | [], _ => False
  end.
Lemma kabove_irrefl a : ¬ kabove a a.
Proof. induction a as [|x a IH]; simpl; [tauto|]. intros [H|[_ H]]; [by apply klt_irrefl in H|done]. Qed.
Lemma kabove_trans a b c : kabove a b → kabove b c → kabove a c.
Proof.
  revert b c. induction a as [|x a IH]; intros [|y b] [|z c]; simpl; try done.
  intros [H1|[-> H1]] [H2|[-> H2]].
  - left. by eapply klt_trans.
  - by left.
  - by left.
  - right. split; [done|]. by eapply IH.
Qed.
Lemma kabove_trich a b : kabove a b ∨ a = b ∨ kabove b a.
Proof.
  revert b. induction a as [|x a IH]; intros [|y b]; simpl; [tauto|tauto|tauto|].
  destruct (klt_trich x y) as [H|[->|H]]; [tauto| |tauto].
  destruct (IH b) as [H|[->|H]]; tauto.
Qed.
Lemma kabove_asym a b : kabove a b → ¬ kabove b a.
Proof. intros H1 H2. eapply kabove_irrefl, kabove_trans; eauto. Qed.

Notation keys := (fmap key).

Lemma above_key a : ∀ b, nan_free a → nan_free b → ranks_above a b ↔ kabove (keys a) (keys b).
Proof.
  unfold nan_free. induction a as [|x a IH]; intros [|y b] Ha Hb.
  - split; [inversion 1|done].
  - split; [inversion 1|done].
  - split; [done|]. intros _. constructor.
  - inversion Ha; inversion Hb; subst. rewrite !fmap_cons. cbn [kabove]. split.
    + inversion 1; subst.
      * left. by apply gtb_key.
      * right. split; [by apply eqb_key|]. by apply IH.
    + intros [H|[He H]].
      * apply above_here. by apply gtb_key.
      * apply above_later; [by apply eqb_key|by apply IH].
Qed.

Lemma scoresLess_key a : ∀ b, nan_free a → nan_free b → scoresLess a b = true ↔ kabove (keys a) (keys b).
Proof.
  unfold nan_free. induction a as [|x a IH]; intros [|y b] Ha Hb.
  - done.
  - split; [|done]. cbn [scoresLess]. rewrite zlen_nil, zlen_cons. intros H%Z.gtb_lt. pose proof (zlen_nonneg b). lia.
  - split; [done|]. intros _. cbn [scoresLess]. rewrite zlen_nil, zlen_cons. apply Z.gtb_lt. pose proof (zlen_nonneg a). lia.
  - inversion Ha; inversion Hb; subst. rewrite !fmap_cons. cbn [kabove scoresLess].
    destruct (f_gtb x y) eqn:E1.
    { apply gtb_key in E1; [|done|done]. tauto. }
    destruct (f_ltb x y) eqn:E2.
    { apply ltb_key in E2; [|done|done]. split; [done|]. intros [H|[He _]]; [by apply klt_asym in H|].
      rewrite He in E2. by apply klt_irrefl in E2. }
    assert (Hxy : key x = key y).
    { destruct (klt_trich (key x) (key y)) as [H|[H|H]]; [|done|].
      - apply ltb_key in H; [congruence|done|done].
      - apply (gtb_key x y) in H; [congruence|done|done]. }
    rewrite IH by done. split; [tauto|]. intros [H|[_ H]]; [|done]. rewrite Hxy in H. by apply klt_irrefl in H.
Qed.

Lemma scoresLess_above a b : nan_free a → nan_free b → scoresLess a b = true ↔ ranks_above a b.
Proof. intros Ha Hb. by rewrite scoresLess_key, above_key. Qed.

Lemma score_eq_key a : ∀ b, nan_free a → nan_free b → score_eq a b ↔ keys a = keys b.
Proof.
  unfold nan_free, score_eq. induction a as [|x a IH]; intros [|y b] Ha Hb.
  - split; [done|]. intros _. constructor.
  - split; [inversion 1|done].
  - split; [inversion 1|done].
  - inversion Ha; inversion Hb; subst. rewrite !fmap_cons. split.
    + inversion 1; subst. f_equal; [by apply eqb_key|by apply IH].
    + injection 1 as He Hk. constructor; [by apply eqb_key|by apply IH].
Qed.

(** * C31 *)
Lemma C31_lem a b c : nan_free a → nan_free b → nan_free c →
  scoresLess a a = false ∧
  (scoresLess a b = true → scoresLess b c = true → scoresLess a c = true) ∧
  (scoresLess a b = true ↔ ranks_above a b) ∧
  (scoresLess a b = false ∧ scoresLess b a = false ↔ score_eq a b) ∧
  (score_eq a b → score_eq b c → score_eq a c).
Proof.
  intros Ha Hb Hc. split; [|split; [|split; [|split]]].
  - apply not_true_iff_false. rewrite scoresLess_key by done. apply kabove_irrefl.
  - rewrite !scoresLess_key by done. apply kabove_trans.
  - by apply scoresLess_above.
  - rewrite <- !not_true_iff_false, !scoresLess_key, score_eq_key by done.
    split.
    + intros [H1 H2]. destruct (kabove_trich (keys a) (keys b)) as [?|[?|?]]; done.
    + intros ->. split; apply kabove_irrefl.
  - rewrite !score_eq_key by done. congruence.
Qed.

Definition one : F := f32_of_Z 1.
Definition two : F := f32_of_Z 2.
Lemma C31_nan_lem :
  scoresLess [one] [S754_nan] = false ∧ scoresLess [S754_nan] [one] = false ∧
  scoresLess [S754_nan] [two] = false ∧ scoresLess [two] [S754_nan] = false ∧
  scoresLess [two] [one] = true.
Proof. by vm_compute. Qed.
