(** Basic vocabulary of the model: Go strings, integers, slices, float32.

    Go strings are byte sequences; Coq's [string] is a list of 8-bit [ascii],
    so it is an exact representation. *)
From stdpp Require Export base tactics list gmap strings sorting.
From Coq Require Export ZArith Lia.
From Coq Require Import SpecFloat.
From Coq Require Structures.OrderedTypeEx.

Global Open Scope Z_scope.
Global Open Scope list_scope.

(** * Strings *)

(** Go [a < b] on strings: byte-wise lexicographic comparison. *)
Definition sltb (a b : string) : bool := String.ltb a b.
Definition slt (a b : string) : Prop := sltb a b = true.
(** Go [a == b] on strings. *)
Definition seqb (a b : string) : bool := String.eqb a b.
(** Go [len(s)] on strings: number of bytes. *)
Definition strlen (s : string) : Z := Z.of_nat (String.length s).

Global Instance slt_dec a b : Decision (slt a b).
Proof. unfold slt. apply _. Defined.

Lemma sltb_compare a b : sltb a b = true ↔ String.compare a b = Lt.
Proof. unfold sltb, String.ltb. destruct (String.compare a b); split; congruence. Qed.

Lemma slt_OT a b : slt a b ↔ OrderedTypeEx.String_as_OT.lt a b.
Proof.
  unfold slt. rewrite sltb_compare. apply OrderedTypeEx.String_as_OT.cmp_lt.
Qed.

Global Instance slt_trans : Transitive slt.
Proof. intros a b c. rewrite !slt_OT. apply OrderedTypeEx.String_as_OT.lt_trans. Qed.

Global Instance slt_irrefl : Irreflexive slt.
Proof.
  intros a H. apply slt_OT in H. by apply OrderedTypeEx.String_as_OT.lt_not_eq in H.
Qed.

Global Instance slt_strict : StrictOrder slt.
Proof. split; apply _. Qed.

Lemma slt_trich a b : slt a b ∨ a = b ∨ slt b a.
Proof.
  destruct (String.compare a b) eqn:E.
  - right; left. by apply String.compare_eq_iff.
  - left. by apply sltb_compare.
  - right; right. apply sltb_compare. rewrite String.compare_antisym, E. done.
Qed.

Global Instance slt_trichotomyT : TrichotomyT slt.
Proof.
  intros a b. destruct (decide (slt a b)); [left; left; done|].
  destruct (decide (a = b)); [left; right; done|].
  right. destruct (slt_trich a b) as [|[|]]; done.
Defined.

Lemma slt_asym a b : slt a b → ¬ slt b a.
Proof. intros H1 H2. eapply slt_irrefl. etrans; eauto. Qed.

Lemma slt_ne a b : slt a b → a ≠ b.
Proof. intros H ->. by eapply slt_irrefl. Qed.

Lemma seqb_eq a b : seqb a b = true ↔ a = b.
Proof. apply String.eqb_eq. Qed.
Lemma seqb_neq a b : seqb a b = false ↔ a ≠ b.
Proof. apply String.eqb_neq. Qed.
Lemma seqb_refl a : seqb a a = true.
Proof. by apply seqb_eq. Qed.
Lemma sltb_true a b : sltb a b = true ↔ slt a b.
Proof. done. Qed.
Lemma sltb_false a b : sltb a b = false ↔ ¬ slt a b.
Proof. unfold slt. destruct (sltb a b); naive_solver. Qed.
Lemma not_slt a b : ¬ slt a b ↔ a = b ∨ slt b a.
Proof.
  split.
  - destruct (slt_trich a b) as [|[|]]; naive_solver.
  - intros [->|H]; [apply slt_irrefl|by apply slt_asym].
Qed.

(** Non-strict order. *)
Definition sle (a b : string) : Prop := ¬ slt b a.
Global Instance sle_dec a b : Decision (sle a b).
Proof. unfold sle. apply _. Defined.
Global Instance sle_trans : Transitive sle.
Proof.
  intros a b c H1 H2 H. destruct (slt_trich a b) as [Hab|[->|Hab]]; try done.
  apply H2. by etrans.
Qed.
Global Instance sle_total : Total sle.
Proof.
  intros a b. unfold sle. destruct (slt_trich a b) as [?|[->|?]].
  - left. by apply slt_asym.
  - left. apply slt_irrefl.
  - right. by apply slt_asym.
Qed.
Global Instance sle_refl : Reflexive sle.
Proof. intros a. apply slt_irrefl. Qed.
Global Instance sle_antisymm : AntiSymm (=) sle.
Proof. intros a b H1 H2. unfold sle in *. destruct (slt_trich a b) as [|[|]]; naive_solver. Qed.
Lemma slt_sle a b : slt a b → sle a b.
Proof. apply slt_asym. Qed.
Lemma sle_slt_trans a b c : sle a b → slt b c → slt a c.
Proof. intros H1 H2. apply not_slt in H1 as [->|H1]; [done|]. by etrans. Qed.
Lemma slt_sle_trans a b c : slt a b → sle b c → slt a c.
Proof. intros H1 H2. apply not_slt in H2 as [->|H2]; [done|]. by etrans. Qed.

(** * Integers *)

(** Go uint64 / uint32 arithmetic wraps around. *)
Definition u64 (x : Z) : Z := x `mod` 2^64.
Definition u32 (x : Z) : Z := x `mod` 2^32.
(** Go int (64 bit) and int32 arithmetic wraps around in two's complement. *)
Definition int64 (x : Z) : Z := (x + 2^63) `mod` 2^64 - 2^63.
Definition int32 (x : Z) : Z := (x + 2^31) `mod` 2^32 - 2^31.

Lemma int64_id x : - 2^63 <= x < 2^63 → int64 x = x.
Proof. intros H. unfold int64. rewrite Z.mod_small; lia. Qed.
Lemma int32_id x : - 2^31 <= x < 2^31 → int32 x = x.
Proof. intros H. unfold int32. rewrite Z.mod_small; lia. Qed.
Lemma int64_range x : - 2^63 <= int64 x < 2^63.
Proof. unfold int64. pose proof (Z.mod_pos_bound (x + 2^63) (2^64)). lia. Qed.
Lemma u64_id x : 0 <= x < 2^64 → u64 x = x.
Proof. intros H. unfold u64. by rewrite Z.mod_small. Qed.

(** utils/utils.go:AbsInt lines 18-23 (via [int64], as [-a] wraps). *)
Definition AbsInt (a : Z) : Z := if a <? 0 then int64 (- a) else a.
(** utils/utils.go:MinInt lines 26-31. *)
Definition MinInt (a b : Z) : Z := if a <? b then a else b.

Lemma MinInt_min a b : MinInt a b = Z.min a b.
Proof. unfold MinInt. destruct (Z.ltb_spec a b); lia. Qed.

(** * Slices *)

(** [l[i]] : [None] stands for the run-time panic "index out of range". *)
Definition zget {A} (l : list A) (i : Z) : option A :=
  if i <? 0 then None else l !! Z.to_nat i.
(** [l[i] = v] *)
Definition zset {A} (l : list A) (i : Z) (v : A) : option (list A) :=
  if (0 <=? i) && (i <? Z.of_nat (length l)) then Some (<[Z.to_nat i := v]> l) else None.
(** [len(l)] *)
Definition zlen {A} (l : list A) : Z := Z.of_nat (length l).
(** [l[i:j]]; Go allows [j] up to the capacity, the model only up to the length
    (every slice expression of the modelled code has [j <= len]). *)
Definition zslice {A} (l : list A) (i j : Z) : option (list A) :=
  if (0 <=? i) && (i <=? j) && (j <=? zlen l)
  then Some (take (Z.to_nat (j - i)) (drop (Z.to_nat i) l)) else None.

Lemma zget_Some {A} (l : list A) i x :
  zget l i = Some x ↔ 0 <= i ∧ l !! Z.to_nat i = Some x.
Proof. unfold zget. destruct (Z.ltb_spec i 0); naive_solver lia. Qed.
Lemma zget_nat {A} (l : list A) (i : nat) : zget l (Z.of_nat i) = l !! i.
Proof. unfold zget. destruct (Z.ltb_spec (Z.of_nat i) 0); [lia|]. by rewrite Nat2Z.id. Qed.
Lemma zget_in {A} (l : list A) i : 0 <= i < zlen l → is_Some (zget l i).
Proof.
  intros H. unfold zget, zlen in *. destruct (Z.ltb_spec i 0); [lia|].
  apply lookup_lt_is_Some. lia.
Qed.
Lemma zget_lt {A} (l : list A) i x : zget l i = Some x → 0 <= i < zlen l.
Proof.
  rewrite zget_Some. intros [? H]. apply lookup_lt_Some in H. unfold zlen. lia.
Qed.
Lemma zget_elem {A} (l : list A) i x : zget l i = Some x → x ∈ l.
Proof. rewrite zget_Some. intros [_ H]. by eapply elem_of_list_lookup_2. Qed.
Lemma zset_in {A} (l : list A) i v :
  0 <= i < zlen l → zset l i v = Some (<[Z.to_nat i := v]> l).
Proof.
  intros H. unfold zset, zlen in *.
  destruct (Z.leb_spec 0 i), (Z.ltb_spec i (Z.of_nat (length l))); simpl; done || lia.
Qed.
Lemma zset_Some {A} (l : list A) i v l' :
  zset l i v = Some l' ↔ 0 <= i < zlen l ∧ l' = <[Z.to_nat i := v]> l.
Proof.
  unfold zset, zlen.
  destruct (Z.leb_spec 0 i), (Z.ltb_spec i (Z.of_nat (length l))); simpl; naive_solver lia.
Qed.
Lemma zlen_nonneg {A} (l : list A) : 0 <= zlen l.
Proof. unfold zlen. lia. Qed.
Lemma zlen_app {A} (l k : list A) : zlen (l ++ k) = zlen l + zlen k.
Proof. unfold zlen. rewrite app_length. lia. Qed.
Lemma zlen_cons {A} (x : A) l : zlen (x :: l) = 1 + zlen l.
Proof. unfold zlen. simpl length. lia. Qed.
Lemma zlen_nil {A} : zlen (@nil A) = 0.
Proof. done. Qed.

Lemma bind_Some_eq {A B} (x : A) (f : A → option B) : Some x ≫= f = f x.
Proof. done. Qed.

(** The Go idiom [x = append(x, dummy); copy(x[p+1:], x[p:]); x[p] = v]. *)
Definition go_insert {A} (l : list A) (p : Z) (dummy v : A) : option (list A) :=
  let l1 := l ++ [dummy] in
  (* copy(l1[p+1:], l1[p:]) moves min(len-p-1, len-p) elements; memmove semantics *)
  if (0 <=? p) && (p + 1 <=? zlen l1) then
    let n := Z.to_nat p in
    let l2 := take (S n) l1 ++ take (length l1 - S n) (drop n l1) in
    zset l2 p v
  else None.

Lemma go_insert_spec {A} (l : list A) p d v :
  0 <= p <= zlen l →
  go_insert l p d v = Some (take (Z.to_nat p) l ++ v :: drop (Z.to_nat p) l).
Proof.
  intros Hp. unfold go_insert, zlen in *. rewrite app_length. simpl length.
  destruct (Z.leb_spec 0 p); [|lia].
  destruct (Z.leb_spec (p + 1) (Z.of_nat (length l + 1))); [|lia]. cbn [andb].
  set (n := Z.to_nat p). assert (Hn : (n ≤ length l)%nat) by lia.
  assert (Hlen : length (take (S n) (l ++ [d]) ++
            take (length l + 1 - S n) (drop n (l ++ [d]))) = S (length l)).
  { rewrite app_length, !take_length, drop_length, app_length. cbn [length]. lia. }
  rewrite zset_in by (unfold zlen; rewrite Hlen; lia). f_equal. fold n.
  rewrite insert_app_l by (rewrite take_length, app_length; cbn [length]; lia).
  assert (Htake : take (S n) (l ++ [d]) = take n (l ++ [d]) ++ take 1 (drop n (l ++ [d]))).
  { rewrite <- (take_drop n (l ++ [d])) at 1.
    rewrite take_app_ge by (rewrite take_length, app_length; cbn [length]; lia).
    f_equal. f_equal. rewrite take_length, app_length; cbn [length]. lia. }
  rewrite Htake, take_app_le by lia.
  rewrite insert_app_r_alt by (rewrite take_length; lia).
  rewrite take_length. replace (n - n `min` length l)%nat with 0%nat by lia.
  rewrite drop_app_le by lia.
  replace (length l + 1 - S n)%nat with (length (drop n l)) by (rewrite drop_length; lia).
  rewrite take_app. rewrite <- app_assoc. f_equal.
  destruct (drop n l); reflexivity.
Qed.

(** * float32 and float64 *)

Definition F := spec_float.
Definition f32_add : F → F → F := SFadd 24 128.
Definition f32_sub : F → F → F := SFsub 24 128.
Definition f32_mul : F → F → F := SFmul 24 128.
Definition f32_div : F → F → F := SFdiv 24 128.
Definition f64_add : F → F → F := SFadd 53 1024.
Definition f64_div : F → F → F := SFdiv 53 1024.
(** Go comparison operators on floats; all false on NaN. *)
Definition f_ltb (x y : F) : bool := SFltb x y.
Definition f_gtb (x y : F) : bool := SFltb y x.
Definition f_eqb (x y : F) : bool := SFeqb x y.
Definition f_zero : F := S754_zero false.
(** Conversion of an integer to float32 / float64 (round to nearest even). *)
Definition f32_of_Z (n : Z) : F := binary_normalize 24 128 n 0 false.
Definition f64_of_Z (n : Z) : F := binary_normalize 53 1024 n 0 false.
(** float32(x) for a float64 x. *)
Definition f32_of_f64 (x : F) : F :=
  match x with
  | S754_finite s m e => binary_normalize 24 128 (cond_Zopp s (Zpos m)) e s
  | _ => x
  end.

Example f32_demo :
  f32_add (f32_of_Z 16777216) (f32_of_Z 1) = f32_of_Z 16777216 ∧
  f_ltb (f32_of_Z 2) (f32_of_Z 3) = true.
Proof. split; vm_compute; reflexivity. Qed.

(** * Sorted lists *)

(** Any two strictly sorted lists with the same elements are equal. *)
Lemma StronglySorted_unique_elem (l k : list string) :
  StronglySorted slt l → StronglySorted slt k → (∀ x, x ∈ l ↔ x ∈ k) → l = k.
Proof.
  revert k. induction l as [|x l IH]; intros [|y k] Hl Hk Heq; [done| | |].
  - exfalso. assert (y ∈ @nil string) as H by (apply Heq; left). by apply elem_of_nil in H.
  - exfalso. assert (x ∈ @nil string) as H by (apply Heq; left). by apply elem_of_nil in H.
  - apply StronglySorted_inv in Hl as [Hl Hlx], Hk as [Hk Hky].
    rewrite Forall_forall in Hlx, Hky.
    assert (x = y) as ->.
    { assert (x ∈ y :: k) as [->|H1]%elem_of_cons by (apply Heq; left); [done|].
      assert (y ∈ x :: l) as [->|H2]%elem_of_cons by (apply Heq; left); [done|].
      exfalso. eapply slt_asym; eauto. }
    f_equal. apply IH; [done..|]. intros z. split; intros Hz.
    + assert (z ∈ y :: k) as [->|?]%elem_of_cons by (apply Heq; by right); [|done].
      exfalso. eapply slt_irrefl, Hlx; eauto.
    + assert (z ∈ y :: l) as [->|?]%elem_of_cons by (apply Heq; by right); [|done].
      exfalso. eapply slt_irrefl, Hky; eauto.
Qed.

Lemma StronglySorted_NoDup (l : list string) : StronglySorted slt l → NoDup l.
Proof.
  induction 1 as [|x l _ IH Hx]; constructor; [|done].
  intros Hin. rewrite Forall_forall in Hx. by eapply slt_irrefl, Hx.
Qed.

Lemma StronglySorted_lookup {A} (R : relation A) (l : list A) i j x y :
  StronglySorted R l → (i < j)%nat → l !! i = Some x → l !! j = Some y → R x y.
Proof.
  intros Hs. revert i j. induction Hs as [|z l Hs IH Hz]; intros i j Hij Hi Hj; [done|].
  destruct j as [|j]; [lia|]. simpl in Hj. destruct i as [|i].
  - simpl in Hi. simplify_eq. rewrite Forall_forall in Hz. apply Hz.
    by eapply elem_of_list_lookup_2.
  - simpl in Hi. apply (IH i j); [lia|done|done].
Qed.

Lemma StronglySorted_of_lookup {A} (R : relation A) (l : list A) :
  (∀ i j x y, (i < j)%nat → l !! i = Some x → l !! j = Some y → R x y) →
  StronglySorted R l.
Proof.
  induction l as [|z l IH]; intros H; constructor.
  - apply IH. intros i j x y ???. apply (H (S i) (S j)); [lia|done|done].
  - apply Forall_forall. intros x [i Hi]%elem_of_list_lookup.
    apply (H 0%nat (S i)); [lia|done|done].
Qed.

Lemma StronglySorted_lookup_inv (l : list string) i j x y :
  StronglySorted slt l → l !! i = Some x → l !! j = Some y → slt x y → (i < j)%nat.
Proof.
  intros Hs Hi Hj Hxy. destruct (decide (i < j)%nat); [done|]. exfalso.
  destruct (decide (i = j)) as [->|].
  - simplify_eq. by eapply slt_irrefl.
  - eapply slt_asym; [exact Hxy|]. eapply (StronglySorted_lookup slt l j i); eauto. lia.
Qed.

Lemma StronglySorted_app_iff {A} (R : relation A) (l k : list A) :
  StronglySorted R (l ++ k) ↔
  StronglySorted R l ∧ StronglySorted R k ∧ (∀ x y, x ∈ l → y ∈ k → R x y).
Proof.
  induction l as [|z l IH]; simpl.
  - split; [intros ?; repeat split; [constructor|done|]; set_solver|naive_solver].
  - split.
    + intros [H1 H2]%StronglySorted_inv. apply IH in H1 as (?&?&?).
      rewrite Forall_app in H2. destruct H2 as [H2 H3].
      split; [constructor; done|]. split; [done|].
      intros x y [->|Hx]%elem_of_cons Hy; [|by eauto].
      rewrite Forall_forall in H3. eauto.
    + intros ([H1 H2]%StronglySorted_inv & H3 & H4). constructor.
      * apply IH. split; [done|]. split; [done|]. intros x y ??. apply H4; [by right|done].
      * apply Forall_app. split; [done|]. apply Forall_forall. intros y Hy.
        apply H4; [left|done].
Qed.

Lemma StronglySorted_filter {A} (R : relation A) (P : A → Prop) `{∀ x, Decision (P x)} l :
  StronglySorted R l → StronglySorted R (filter P l).
Proof.
  induction 1 as [|x l _ IH Hx]; [constructor|]. rewrite filter_cons.
  destruct (decide (P x)); [|done]. constructor; [done|].
  rewrite Forall_forall in *. intros y [_ ?]%elem_of_list_filter. eauto.
Qed.
