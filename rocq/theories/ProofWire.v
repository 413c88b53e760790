(** Reading and writing of numbers, bytes and fields (C108). *)
From Verif Require Import SpecWire.

(** * Conversions and the bits of numbers *)
Lemma wrap_bits n x i :
  0 < n → 0 <= i →
  Z.testbit ((x + 2^(n-1)) `mod` 2^n - 2^(n-1)) i = Z.testbit x (Z.min i (n-1)).
Proof.
  intros Hn Hi. set (w := (x + 2^(n-1)) `mod` 2^n - 2^(n-1)).
  assert (H2 : 2^n = 2 * 2^(n-1)).
  { rewrite <- Z.pow_succ_r by lia. f_equal. lia. }
  assert (Hp : 0 < 2^(n-1)) by (apply Z.pow_pos_nonneg; lia).
  assert (Hr : - 2^(n-1) <= w < 2^(n-1)).
  { unfold w. pose proof (Z.mod_pos_bound (x + 2^(n-1)) (2^n)). lia. }
  assert (Hm : w `mod` 2^n = x `mod` 2^n).
  { unfold w. rewrite Zminus_mod, Zmod_mod, <- Zminus_mod. f_equal. lia. }
  assert (Hlow : ∀ j, 0 <= j < n → Z.testbit w j = Z.testbit x j).
  { intros j Hj. rewrite <- (Z.mod_pow2_bits_low w n j) by lia. rewrite Hm. rewrite Z.mod_pow2_bits_low by lia. done. }
  destruct (decide (i < n)).
  - rewrite Hlow by lia. f_equal. lia.
  - rewrite Z.min_r by lia. rewrite <- Hlow by lia.
    assert (Hhi : ∀ j, n - 1 <= j → Z.testbit w j = Z.testbit (w / 2^(n-1)) 0).
    { intros j Hj. replace j with ((j - (n-1)) + (n-1)) by lia. rewrite <- Z.div_pow2_bits by lia.
      assert (w / 2^(n-1) = 0 ∨ w / 2^(n-1) = -1) as [-> | ->].
      { destruct (decide (0 <= w)).
        - left. apply Z.div_small. lia.
        - right. symmetry. apply (Z.div_unique w (2^(n-1)) (-1) (w + 2^(n-1))); lia. }
      - rewrite !Z.bits_0. done.
      - rewrite !Z.bits_m1 by lia. done. }
    rewrite (Hhi i), (Hhi (n-1)) by lia. done.
Qed.
(** conversions that keep [lor] *)
Definition cuts (trunc : Z → Z) : Prop := ∀ a b, trunc (Z.lor a b) = Z.lor (trunc a) (trunc b).
Lemma cuts_u64 : cuts u64.
Proof.
  intros a b. unfold u64. apply Z.bits_inj'. intros n Hn. rewrite Z.lor_spec.
  destruct (decide (n < 64)).
  - rewrite !Z.mod_pow2_bits_low by lia. apply Z.lor_spec.
  - rewrite !Z.mod_pow2_bits_high by lia. done.
Qed.
Lemma cuts_int64 : cuts int64.
Proof.
  intros a b. unfold int64. apply Z.bits_inj'. intros n Hn. rewrite Z.lor_spec.
  change (2^63) with (2^(64-1)). rewrite !wrap_bits by lia. apply Z.lor_spec.
Qed.
Lemma cuts_int32 : cuts int32.
Proof.
  intros a b. unfold int32. apply Z.bits_inj'. intros n Hn. rewrite Z.lor_spec.
  change (2^31) with (2^(32-1)). rewrite !wrap_bits by lia. apply Z.lor_spec.
Qed.

Lemma land127 v : Z.land v 127 = v `mod` 128.
Proof. change 127 with (Z.ones 7). rewrite Z.land_ones by lia. done. Qed.
Lemma land127_add v : Z.land (v `mod` 128 + 128) 127 = v `mod` 128.
Proof. rewrite land127, Z.add_mod, Z.mod_same, Z.add_0_r, !Z.mod_mod by lia. done. Qed.
Lemma shr7 v : Z.shiftr v 7 = v / 128.
Proof. rewrite Z.shiftr_div_pow2 by lia. done. Qed.
Lemma lor_split v s : 0 <= s → Z.lor (Z.shiftl (v `mod` 128) s) (Z.shiftl (v / 128) (s + 7)) = Z.shiftl v s.
Proof.
  intros Hs. rewrite (Z.add_comm s 7), <- Z.shiftl_shiftl by lia. rewrite <- Z.shiftl_lor. f_equal.
  apply Z.bits_inj'. intros n Hn. rewrite Z.lor_spec. change 128 with (2^7).
  destruct (decide (n < 7)).
  - rewrite Z.mod_pow2_bits_low by lia. rewrite Z.shiftl_spec_low by lia. apply orb_false_r.
  - rewrite Z.mod_pow2_bits_high by lia. rewrite Z.shiftl_spec_high by lia. rewrite Z.div_pow2_bits by lia.
    simpl. f_equal. lia.
Qed.

(** * Lists *)
Lemma zget_mid {A} (p q : list A) x : zget (p ++ x :: q) (zlen p) = Some x.
Proof. unfold zlen. rewrite zget_nat. by rewrite list_lookup_middle. Qed.
Lemma zslice_mid {A} (p x q : list A) i j :
  i = zlen p → j = zlen p + zlen x → zslice (p ++ x ++ q) i j = Some x.
Proof.
  intros -> ->. unfold zslice, zlen. rewrite !app_length.
  rewrite (proj2 (Z.leb_le _ _)), (proj2 (Z.leb_le _ _)), (proj2 (Z.leb_le _ _)) by lia. simpl. f_equal.
  rewrite Nat2Z.id, drop_app. replace (Z.to_nat _) with (length x) by lia. apply take_app.
Qed.
Lemma zslice_tail {A} (p x : list A) i :
  i = zlen p → zslice (p ++ x) i (zlen (p ++ x)) = Some x.
Proof.
  intros ->. rewrite <- (app_nil_r x) at 1. rewrite zslice_mid; [done|done|apply zlen_app].
Qed.

(** * Numbers *)
Lemma groups_step k v : 128 <= v → groups (S k) v = (v `mod` 128 + 128) :: groups k (v / 128).
Proof. intros H. simpl. destruct (v <? 128) eqn:E; [apply Z.ltb_lt in E; lia|done]. Qed.
Lemma groups_last k v : v < 128 → groups k v = [v].
Proof. intros H. destruct k; [done|]. simpl. by rewrite (proj2 (Z.ltb_lt _ _) H). Qed.
Lemma pow_128 (k : nat) : 128 ^ Z.of_nat (S k) = 128 * 128 ^ Z.of_nat k.
Proof. rewrite Nat2Z.inj_succ, Z.pow_succ_r by lia. done. Qed.
Lemma groups_len k v : 1 <= zlen (groups k v) <= Z.of_nat k + 1.
Proof.
  revert v. induction k as [|k IH]; intros v; [done|]. simpl.
  destruct (v <? 128); rewrite zlen_cons; [rewrite zlen_nil; lia|]. specialize (IH (v / 128)). lia.
Qed.
Lemma varint_len v : 1 <= zlen (varint v) <= 10.
Proof. apply (groups_len 9). Qed.

Lemma readVar_groups trunc k f acc s v pre post :
  cuts trunc → 0 <= v < 128 ^ Z.of_nat (S k) → 0 <= s → s + 7 * Z.of_nat k <= 63 → (k < f)%nat →
  readVar f trunc (pre ++ groups k v ++ post) s (trunc acc) (zlen pre) =
  Got (trunc (Z.lor acc (Z.shiftl v s))) (zlen pre + zlen (groups k v)).
Proof.
  intros Hc. revert f acc s v pre. induction k as [|k IH]; intros f acc s v pre Hv Hs Hk Hf;
    (destruct f as [|f]; [lia|]); cbn [readVar];
    (rewrite (proj2 (Z.leb_gt _ _)) by lia);
    (rewrite (proj2 (Z.leb_gt _ _)) by
      (rewrite !zlen_app; pose proof (zlen_nonneg post); match goal with |- context [groups ?k v] => pose proof (groups_len k v) end; lia)).
  - simpl groups. simpl app. rewrite zget_mid. change (128 ^ Z.of_nat 1) with 128 in Hv.
    rewrite (proj2 (Z.ltb_lt _ _)) by lia. rewrite land127, Z.mod_small by lia. rewrite Hc. done.
  - destruct (decide (v < 128)).
    + rewrite groups_last by done. simpl app. rewrite zget_mid.
      rewrite (proj2 (Z.ltb_lt _ _)) by lia. rewrite land127, Z.mod_small by lia. rewrite Hc. done.
    + rewrite groups_step by lia. simpl app. rewrite zget_mid.
      pose proof (Z.mod_pos_bound v 128). rewrite (proj2 (Z.ltb_ge _ _)) by lia.
      rewrite land127_add. rewrite <- Hc.
      pose proof (IH f (Z.lor acc (Z.shiftl (v `mod` 128) s)) (s + 7) (v / 128) (pre ++ [v `mod` 128 + 128])) as E.
      assert (zlen (pre ++ [v `mod` 128 + 128]) = zlen pre + 1) as El by (rewrite zlen_app; done).
      rewrite El, <- app_assoc in E. simpl app in E.
      rewrite E; [|..].
      * f_equal; [|rewrite zlen_cons; lia]. rewrite <- Z.lor_assoc, lor_split by lia. done.
      * rewrite pow_128 in Hv. split; [apply Z.div_pos; lia|]. apply Z.div_lt_upper_bound; lia.
      * lia.
      * lia.
      * lia.
Qed.
Lemma readNum_varint trunc v pre post :
  cuts trunc → trunc 0 = 0 → 0 <= v < 2^64 →
  readNum trunc (pre ++ varint v ++ post) (zlen pre) = Got (trunc v) (zlen pre + zlen (varint v)).
Proof.
  intros Hc H0 Hv. unfold readNum, varint.
  pose proof (readVar_groups trunc 9 11 0 0 v pre post Hc) as E. rewrite H0 in E.
  rewrite E by (try lia; change (128 ^ Z.of_nat 10) with (2^70); lia).
  rewrite Z.lor_0_l, Z.shiftl_0_r. done.
Qed.

(** * Writing *)
Definition writes (w : writer) (b : bytes) : Prop :=
  ∀ pre rest, (length b <= length rest)%nat →
    w (pre ++ rest, zlen pre) = Some (pre ++ b ++ drop (length b) rest, zlen pre + zlen b).
Lemma writes_skip : writes skipW [].
Proof. intros pre rest _. simpl. unfold skipW. by rewrite zlen_nil, Z.add_0_r. Qed.
Lemma writes_seq w1 w2 b1 b2 : writes w1 b1 → writes w2 b2 → writes (w1 ;> w2) (b1 ++ b2).
Proof.
  intros H1 H2 pre rest Hl. rewrite app_length in Hl. unfold seqW. rewrite H1 by lia. simpl.
  specialize (H2 (pre ++ b1) (drop (length b1) rest)). rewrite drop_length in H2.
  rewrite <- app_assoc in H2. rewrite zlen_app in H2. rewrite H2 by lia. rewrite drop_drop.
  rewrite app_length, zlen_app. f_equal. f_equal; [by rewrite <- !app_assoc|lia].
Qed.
Lemma writes_put x : writes (putW x) [x].
Proof.
  intros pre rest Hl. simpl in Hl. destruct rest as [|r rest]; [simpl in Hl; lia|]. unfold putW. simpl fst. simpl snd.
  change (zlen [x]) with 1. unfold zset, zlen. rewrite (proj2 (Z.leb_le _ _)) by lia.
  rewrite (proj2 (Z.ltb_lt _ _)) by (rewrite app_length; simpl; lia). simpl. rewrite Nat2Z.id.
  rewrite insert_app_r_alt by lia. rewrite Nat.sub_diag. simpl. by rewrite drop_0.
Qed.
Lemma writes_copy b : writes (copyW b) b.
Proof.
  intros pre rest Hl. unfold copyW. simpl fst. simpl snd. rewrite zslice_tail by done. simpl.
  rewrite Z.min_r by (unfold zlen; lia). unfold zlen at 1 2 3. rewrite !Nat2Z.id, take_app, firstn_all. done.
Qed.
Lemma writes_inner w b : writes w b → writes (innerW w) b.
Proof.
  intros H pre rest Hl. unfold innerW. simpl fst. simpl snd. rewrite zslice_tail by done. simpl.
  specialize (H [] rest Hl). rewrite zlen_nil in H. simpl in H. rewrite H. simpl.
  unfold zlen at 1. rewrite Nat2Z.id, take_app. done.
Qed.
Lemma writes_each {A} (w : A → writer) (e : A → bytes) l :
  (∀ x, x ∈ l → writes (w x) (e x)) → writes (eachW w l) (concat (map e l)).
Proof.
  induction l as [|x l IH]; intros H; simpl; [apply writes_skip|].
  apply writes_seq; [apply H; left|]. apply IH. intros y Hy. apply H. by right.
Qed.
Lemma writes_if c w b : (c = true → writes w b) → writes (ifW c w) (if c then b else []).
Proof. intros H. destruct c; simpl; [by apply H|apply writes_skip]. Qed.
Lemma writes_groups k f v :
  0 <= v < 128 ^ Z.of_nat (S k) → (k < f)%nat → writes (varintW f v) (groups k v).
Proof.
  revert f v. induction k as [|k IH]; intros f v Hv Hf; (destruct f as [|f]; [lia|]); cbn [varintW].
  - change (128 ^ Z.of_nat 1) with 128 in Hv. rewrite (proj2 (Z.leb_gt _ _)) by lia. simpl.
    unfold uint8. rewrite Z.mod_small by lia. apply writes_put.
  - destruct (decide (v < 128)).
    + rewrite (proj2 (Z.leb_gt _ _)) by lia. rewrite groups_last by done.
      unfold uint8. rewrite Z.mod_small by lia. apply writes_put.
    + rewrite (proj2 (Z.leb_le _ _)) by lia. rewrite groups_step by lia.
      rewrite land127, shr7. change (?x :: ?y) with ([x] ++ y).
      assert (Z.lor (v `mod` 128) 128 = v `mod` 128 + 128) as ->.
      { pose proof (Z.mod_pos_bound v 128). symmetry. apply Z.add_nocarry_lor. apply Z.bits_inj'. intros b Hb.
        rewrite Z.land_spec, Z.bits_0. change 128 with (2^7). destruct (decide (b < 7)).
        - rewrite Z.pow2_bits_false by lia. apply andb_false_r.
        - rewrite Z.mod_pow2_bits_high by lia. done. }
      apply writes_seq.
      * unfold uint8. pose proof (Z.mod_pos_bound v 128). rewrite Z.mod_small by lia. apply writes_put.
      * apply IH; [|lia]. rewrite pow_128 in Hv. split; [apply Z.div_pos; lia|]. apply Z.div_lt_upper_bound; lia.
Qed.
Lemma writes_varint v : 0 <= v < 2^64 → writes (encodeVarintDoc v) (varint v).
Proof. intros Hv. apply (writes_groups 9 11); [|lia]. change (128 ^ Z.of_nat 10) with (2^70). lia. Qed.
Lemma u64_range v : 0 <= u64 v < 2^64.
Proof. apply Z.mod_pos_bound. lia. Qed.

Lemma sov_groups k v : 0 <= v < 128 ^ Z.of_nat (S k) → sov (S k) v = zlen (groups k v).
Proof.
  revert v. induction k as [|k IH]; intros v Hv.
  - change (128 ^ Z.of_nat 1) with 128 in Hv. cbn [sov]. rewrite shr7, Z.div_small by lia. done.
  - cbn [sov]. rewrite shr7. destruct (decide (v < 128)).
    + rewrite Z.div_small by lia. rewrite groups_last by done. done.
    + rewrite groups_step by lia. rewrite zlen_cons. rewrite pow_128 in Hv.
      assert (1 <= v / 128) by (apply Z.div_le_lower_bound; lia).
      rewrite (proj2 (Z.eqb_neq _ _)) by lia. f_equal. apply (IH (v / 128)).
      split; [lia|]. apply Z.div_lt_upper_bound; lia.
Qed.
Lemma sovDoc_varint v : 0 <= v < 2^64 → sovDoc v = zlen (varint v).
Proof. intros Hv. apply (sov_groups 9). change (128 ^ Z.of_nat 10) with (2^70). lia. Qed.

Lemma marshal_writes size w b : writes w b → size = zlen b → marshal size w = Some b.
Proof.
  intros Hw ->. unfold marshal, zlen at 1. rewrite Nat2Z.id.
  specialize (Hw [] (replicate (length b) 0)). rewrite replicate_length in Hw. change (zlen (@nil Z)) with 0 in Hw. simpl app in Hw.
  rewrite Hw by lia. simpl. rewrite drop_ge by (rewrite replicate_length; lia). rewrite app_nil_r.
  rewrite <- (app_nil_r b) at 1. apply (zslice_mid [] b []); done.
Qed.
