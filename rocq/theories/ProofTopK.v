(** Merging sorted prefixes: the first [k] of everything are among the first [k]
    of each part. *)
From Verif Require Import GoBase.

Lemma join_app {B} (l1 l2 : list (list B)) : mjoin (l1 ++ l2) = mjoin l1 ++ mjoin l2.
Proof. induction l1 as [|x l1 IH]; [done|].
  change (x ++ mjoin (l1 ++ l2) = (x ++ mjoin l1) ++ mjoin l2). by rewrite IH, (assoc (++)). Qed.

Section TopK.
  Context {A : Type} (R : A → A → Prop).
  Hypothesis R_irrefl : ∀ a, ¬ R a a.
  Hypothesis R_trans : ∀ a b c, R a b → R b c → R a c.
  Hypothesis R_trich : ∀ a b, R a b ∨ a = b ∨ R b a.

  Definition sorted (l : list A) : Prop := StronglySorted (λ x y, ¬ R y x) l.

  Lemma sorted_unique l1 l2 : sorted l1 → sorted l2 → l1 ≡ₚ l2 → l1 = l2.
  Proof using R_trich.
    intros H1 H2 Hp.
    assert (AntiSymm (=) (λ x y, ¬ R y x)) as Ha.
    { intros x y Hx Hy. destruct (R_trich x y) as [?|[?|?]]; done. }
    by apply (StronglySorted_unique (λ x y, ¬ R y x)).
  Qed.

  Lemma split_at b l : sorted l → ∃ l1 l2, l = l1 ++ l2 ∧
    Forall (λ x, ¬ R b x) l1 ∧ Forall (λ x, R b x) l2.
  Proof using R_irrefl R_trans R_trich.
    induction 1 as [|x l Hl IH Hx].
    - exists [], []. done.
    - destruct (R_trich b x) as [Hb|Hb].
      + exists [], (x :: l). split; [done|]. split; [constructor|]. constructor; [done|].
        rewrite Forall_forall in Hx |- *. intros y Hy. specialize (Hx y Hy).
        destruct (R_trich x y) as [?|[<-|?]]; [|done|done]. eapply R_trans; done.
      + destruct IH as (l1 & l2 & -> & H1 & H2).
        exists (x :: l1), l2. split; [done|]. split; [|done]. constructor; [|done].
        intros Hbx. destruct Hb as [->|Hb]; [by eapply R_irrefl|]. eapply R_irrefl, R_trans; done.
  Qed.

  Lemma sorted_app l1 l2 : sorted l1 → sorted l2 → (∀ x y, x ∈ l1 → y ∈ l2 → ¬ R y x) → sorted (l1 ++ l2).
  Proof using.
    intros H1 H2. induction H1 as [|x l1 H1 IH Hx]; intros H; [done|]. cbn. constructor.
    - apply IH. intros a b Ha Hb. apply H; [by right|done].
    - apply Forall_app. split; [done|]. apply Forall_forall. intros y Hy. apply H; [by left|done].
  Qed.
  Lemma sorted_app_inv l1 l2 : sorted (l1 ++ l2) →
    sorted l1 ∧ sorted l2 ∧ ∀ x y, x ∈ l1 → y ∈ l2 → ¬ R y x.
  Proof using.
    induction l1 as [|x l1 IH]; cbn; intros H.
    - split; [constructor|]. split; [done|]. intros x y Hx. by apply elem_of_nil in Hx.
    - inversion H as [|? ? H' Hx]; subst. destruct (IH H') as (H1 & H2 & H3).
      apply Forall_app in Hx as [Hx1 Hx2]. split; [by constructor|]. split; [done|].
      intros a b Ha Hb. apply elem_of_cons in Ha as [->|Ha]; [|by apply H3].
      rewrite Forall_forall in Hx2. by apply Hx2.
  Qed.

  (** Insertion. *)
  Lemma insert_sorted b l : sorted l → ∃ l1 l2, l = l1 ++ l2 ∧ sorted (l1 ++ b :: l2) ∧
    Forall (λ x, ¬ R b x) l1 ∧ Forall (λ x, R b x) l2.
  Proof using R_irrefl R_trans R_trich.
    intros Hl. destruct (split_at b l Hl) as (l1 & l2 & -> & H1 & H2).
    exists l1, l2. split; [done|]. split; [|done].
    apply sorted_app_inv in Hl as (Hs1 & Hs2 & H12).
    apply sorted_app; [done|constructor; [done|]|].
    - eapply Forall_impl; [done|]. cbn. intros y Hy Hyb. eapply R_irrefl, R_trans; done.
    - intros x y Hx Hy. apply elem_of_cons in Hy as [->|Hy]; [|by apply H12].
      rewrite Forall_forall in H1. by apply H1.
  Qed.

  Lemma sort_exists l : ∃ s, sorted s ∧ s ≡ₚ l.
  Proof using R_irrefl R_trans R_trich.
    induction l as [|b l IH]; [exists []; split; [constructor|done]|].
    destruct IH as (s & Hs & Hp). destruct (insert_sorted b s Hs) as (l1 & l2 & -> & Hi & _).
    exists (l1 ++ b :: l2). split; [done|]. by rewrite <- Hp, Permutation_middle.
  Qed.

  Lemma submseteq_avoid (T l1 l2 : list A) : T ⊆+ l1 ++ l2 → (∀ x, x ∈ T → x ∈ l2 → False) →
    (length T ≤ length l1)%nat.
  Proof using.
    intros HT Hd. apply submseteq_app_r in HT as (T1 & T2 & Hp & H1 & H2).
    assert (T2 = []) as ->.
    { destruct T2 as [|x T2]; [done|]. exfalso. apply (Hd x).
      - rewrite Hp. apply elem_of_app. right. left.
      - eapply elem_of_submseteq; [|exact H2]. left. }
    rewrite app_nil_r in Hp. rewrite Hp. by apply submseteq_length.
  Qed.

  (** [b] cannot enter the first [k]. *)
  Definition beaten (k : nat) (l : list A) (b : A) : Prop :=
    ∃ T, T ⊆+ l ∧ (k ≤ length T)%nat ∧ Forall (λ t, ¬ R b t) T.

  Lemma topk_one k l b s s' : sorted s → s ≡ₚ l → sorted s' → s' ≡ₚ b :: l → beaten k l b →
    take k s' = take k s.
  Proof using R_irrefl R_trans R_trich.
    intros Hs Hp Hs' Hp' (T & HT & Hk & Hb).
    destruct (insert_sorted b s Hs) as (l1 & l2 & -> & Hi & H1 & H2).
    assert (s' = l1 ++ b :: l2) as ->.
    { apply sorted_unique; [done|done|]. by rewrite Hp', <- Hp, Permutation_middle. }
    assert (length T ≤ length l1)%nat.
    { apply (submseteq_avoid T l1 l2).
      - by rewrite Hp.
      - intros x Hx Hx2. rewrite Forall_forall in Hb, H2. by apply (Hb x Hx), H2. }
    rewrite !take_app_le by lia. done.
  Qed.

  Lemma topk k a rest s s' : sorted s → s ≡ₚ a → sorted s' → s' ≡ₚ a ++ rest →
    Forall (beaten k a) rest → take k s' = take k s.
  Proof using R_irrefl R_trans R_trich.
    intros Hs Hp. revert s'. induction rest as [|b rest IH]; intros s' Hs' Hp' Hb.
    - rewrite app_nil_r in Hp'. f_equal. apply sorted_unique; [done|done|]. by rewrite Hp', Hp.
    - inversion Hb as [|? ? Hb1 Hb2]; subst.
      destruct (sort_exists (a ++ rest)) as (s1 & Hs1 & Hp1).
      rewrite <- (IH s1 Hs1 Hp1 Hb2).
      apply (topk_one k (a ++ rest) b); [done|done|done| |].
      + by rewrite Hp', Permutation_middle.
      + destruct Hb1 as (T & HT & Hk & Hf). exists T. split; [|done].
        etrans; [exact HT|]. by apply submseteq_inserts_r.
  Qed.

  (** Parts: each part sorted, cut after [k]. *)
  Lemma parts_topk k (parts : list (list A)) s s' :
    Forall sorted parts →
    sorted s → s ≡ₚ mjoin (take k <$> parts) →
    sorted s' → s' ≡ₚ mjoin parts → take k s' = take k s.
  Proof using R_irrefl R_trans R_trich.
    intros Hparts Hs Hp Hs' Hp'.
    apply (topk k (mjoin (take k <$> parts)) (mjoin (drop k <$> parts)) s s'); [done|done|done| |].
    - rewrite Hp'. clear. induction parts as [|p parts IH]; [done|].
      rewrite !fmap_cons. cbn [mjoin list_join]. rewrite IH.
      rewrite <- (take_drop k p) at 1. solve_Permutation.
    - apply Forall_forall. intros b Hb. apply elem_of_list_join in Hb as (l & Hb & Hl).
      apply elem_of_list_fmap in Hl as (p & -> & Hin).
      exists (take k p). split; [|split].
      + apply elem_of_list_split in Hin as (pa & pb & ->). rewrite fmap_app, fmap_cons.
        rewrite join_app. cbn [mjoin list_join]. apply submseteq_inserts_l, submseteq_inserts_r. done.
      + rewrite take_length. destruct (drop k p) eqn:E; [by apply elem_of_nil in Hb|].
        assert (length (drop k p) ≠ 0%nat) by (rewrite E; done). rewrite drop_length in *. lia.
      + rewrite Forall_forall in Hparts. specialize (Hparts p Hin).
        rewrite <- (take_drop k p) in Hparts. apply sorted_app_inv in Hparts as (_ & _ & H).
        apply Forall_forall. intros t Ht. by apply H.
  Qed.
End TopK.
