(** A concrete sort meeting [valid_sortBy], used in examples. *)
From Verif Require Import ModelRanker.

Section InsSort.
  Context {A : Type}.
  Fixpoint insBy (less : A → A → bool) (x : A) (l : list A) : list A :=
    match l with
    | [] => [x]
    | y :: l' => if less x y then x :: l else y :: insBy less x l'
    end.
  Definition insSortBy (less : A → A → bool) (l : list A) : list A := foldr (insBy less) [] l.

  Lemma insBy_perm less x l : insBy less x l ≡ₚ x :: l.
  Proof.
    induction l as [|y l IH]; [done|]. cbn. destruct (less x y); [done|]. rewrite IH. constructor.
  Qed.
  Lemma insSortBy_perm less l : insSortBy less l ≡ₚ l.
  Proof. induction l as [|x l IH]; [done|]. cbn. by rewrite insBy_perm, IH. Qed.

  Lemma ge_trans (less : A → A → bool) (l : list A) x y z : strict_weak_on less l → x ∈ l → y ∈ l → z ∈ l →
    less y x = false → less z y = false → less z x = false.
  Proof.
    intros (_ & Htr & Hinc) Hx Hy Hz H1 H2. apply not_true_iff_false. intros H3.
    assert (less x y = false) as H4.
    { apply not_true_iff_false. intros H. rewrite (Htr z x y) in H2; done. }
    assert (less y z = false) as H5.
    { apply not_true_iff_false. intros H. rewrite (Htr y z x) in H1; done. }
    destruct (Hinc x y z) as [_ ?]; try done. congruence.
  Qed.

  Lemma insBy_sorted (less : A → A → bool) (L : list A) x l : strict_weak_on less L → x ∈ L → (∀ y, y ∈ l → y ∈ L) →
    StronglySorted (λ a b, less b a = false) l → StronglySorted (λ a b, less b a = false) (insBy less x l).
  Proof.
    intros HL Hx. induction l as [|y l IH]; intros Hl Hs; cbn.
    - repeat constructor.
    - inversion Hs as [|? ? Hs' Hy]; subst. destruct (less x y) eqn:E.
      + constructor; [done|]. constructor.
        * apply not_true_iff_false. intros H. pose proof HL as (Hirr & Htr & _).
          specialize (Htr x y x Hx). rewrite (Hirr x Hx) in Htr.
          assert (false = true); [|done]. apply Htr; [apply Hl; left|done|done|done].
        * rewrite Forall_forall in Hy |- *. intros z Hz.
          eapply (ge_trans less L x y z); [done|done|apply Hl; left|apply Hl; by right| |by apply Hy].
          apply not_true_iff_false. intros H. pose proof HL as (Hirr & Htr & _).
          specialize (Htr x y x Hx). rewrite (Hirr x Hx) in Htr.
          assert (false = true); [|done]. apply Htr; [apply Hl; left|done|done|done].
      + constructor; [apply IH; [intros; apply Hl; by right|done]|].
        apply Forall_forall. intros z Hz. rewrite insBy_perm in Hz.
        apply elem_of_cons in Hz as [->|Hz]; [done|]. rewrite Forall_forall in Hy. by apply Hy.
  Qed.

  Lemma insSortBy_sorted (less : A → A → bool) (L l : list A) : strict_weak_on less L → (∀ y, y ∈ l → y ∈ L) →
    StronglySorted (λ a b, less b a = false) (insSortBy less l).
  Proof.
    intros HL. induction l as [|x l IH]; intros Hl; [constructor|]. cbn.
    apply (insBy_sorted less L); [done|apply Hl; left| |].
    - intros y Hy. apply Hl. right. change (foldr (insBy less) [] l) with (insSortBy less l) in Hy. by rewrite insSortBy_perm in Hy.
    - apply IH. intros y Hy. apply Hl. by right.
  Qed.

  Lemma insSortBy_valid : valid_sortBy insSortBy.
  Proof.
    intros less l. split; [apply insSortBy_perm|]. intros H. by apply (insSortBy_sorted less l).
  Qed.
End InsSort.
