(** Proofs about gathering replies. *)
From Verif Require Import ModelGather SpecGather.

Section proofs.
  Variable hosts : nat.
  Variable replies : nat * nat → bool.
  Notation step := (gStep hosts replies).
  Notation run := (gRun hosts replies).

  Lemma run_snoc ls l st : run (ls ++ [l]) st = st' ← run ls st; step l st'.
  Proof.
    revert st. induction ls as [|x ls IH]; intros st; cbn.
    - destruct (step l st); done.
    - destruct (step x st); [cbn; apply IH|done].
  Qed.

  Lemma spawn_lookup r m k : spawn hosts r m !! k =
    if decide (k.1 = r ∧ (k.2 < hosts)%nat) then Some PRun else m !! k.
  Proof.
    unfold spawn. assert (G : ∀ s, foldr (λ h m, <[(r, h):=PRun]> m) m (seq s hosts) !! k =
      if decide (k.1 = r ∧ (s <= k.2 < s + hosts)%nat) then Some PRun else m !! k).
    { induction hosts as [|n IH]; intros s; cbn [seq foldr].
      - case_decide; [lia|done].
      - destruct (decide (k = (r, s))) as [->|Hne].
        + rewrite lookup_insert. cbn [fst snd]. by rewrite decide_True by (split; [done|lia]).
        + rewrite lookup_insert_ne by done. rewrite IH. clear IH. destruct k as [a b]. cbn [fst snd].
          assert (a = r → b ≠ s) as Hx by congruence.
          repeat case_decide; try done; exfalso; intuition lia. }
    rewrite G. clear G. repeat case_decide; try done; exfalso; intuition lia.
  Qed.
  Lemma spawn_size r m : (∀ k, k.1 = r → m !! k = None) → size (spawn hosts r m) = (hosts + size m)%nat.
  Proof.
    intros H. unfold spawn. assert (G : ∀ s, size (foldr (λ h m, <[(r, h):=PRun]> m) m (seq s hosts)) = (hosts + size m)%nat
      ∧ ∀ k, k.1 = r → (k.2 < s)%nat → foldr (λ h m, <[(r, h):=PRun]> m) m (seq s hosts) !! k = None).
    { induction hosts as [|n IH]; intros s; cbn [seq foldr]; [split; [done|intros; by apply H]|].
      destruct (IH (S s)) as [A B]. split.
      - rewrite map_size_insert_None by (apply B; [done|cbn; lia]). lia.
      - intros k H1 H2. rewrite lookup_insert_ne by (intros <-; cbn in H2; lia). apply B; [done|lia]. }
    apply G.
  Qed.

  Definition isOk (r : nat) (k : nat * nat) : Prop := k.1 = r ∧ (k.2 < hosts)%nat ∧ replies k = true.

  Record inv (calm : bool) (st : GS) : Prop := {
    i_wg : wg st = size (posts st);
    i_wait : (waiting st = ∅ ∧ posts st = ∅) ∨
             ∃ r, waiting st = {[r]} ∧ (∀ k p, posts st !! k = Some p → k.1 = r ∧ (k.2 < hosts)%nat) ∧
               NoDup (wgdata st) ∧ (∀ k, k ∈ wgdata st → isOk r k ∧ posts st !! k = None) ∧
               (∀ k snap, posts st !! k = Some (PRead snap) → replies k = true ∧
                  NoDup snap ∧ (∀ k', k' ∈ snap → isOk r k' ∧ posts st !! k' = None)) ∧
               (calm = true →
                  (∀ k snap, posts st !! k = Some (PRead snap) → snap = wgdata st) ∧
                  (∀ k k' snap snap', posts st !! k = Some (PRead snap) → posts st !! k' = Some (PRead snap') → k = k') ∧
                  (∀ k, isOk r k → k ∈ wgdata st ∨ is_Some (posts st !! k)));
    i_ans : ∀ r a, answers st !! r = Some a → NoDup a ∧ (∀ k, k ∈ a → isOk r k) ∧
              (calm = true → ∀ k, isOk r k → k ∈ a) }.

  Lemma inv_init calm : inv calm gInit.
  Proof. constructor; [done|by left|]. intros r a H. cbn in H. by rewrite lookup_empty in H. Qed.

  Lemma inv_step calm l st st' : inv calm st → step l st = Some st' →
    (∀ r, l = GStart r → waiting st = ∅) →
    (calm = true → ∀ k, l = GRead k → ∀ k' snap, posts st !! k' ≠ Some (PRead snap)) →
    inv calm st'.
  Proof.
    intros [Iwg Iw Ia] H Hs Hr. destruct l as [r|k|k|k|r]; cbn [gStep] in H.
    - case_decide as D; [done|]. injection H as <-. pose proof (Hs r eq_refl) as W.
      destruct Iw as [[_ Hp]|(r' & W' & _)]; [|set_solver].
      constructor; cbn [wg posts waiting wgdata answers]; [| |done].
      + rewrite spawn_size by (intros; by rewrite Hp, lookup_empty). lia.
      + right. exists r. split; [set_solver|]. 
        assert (L : ∀ k, spawn hosts r (posts st) !! k = if decide (k.1 = r ∧ (k.2 < hosts)%nat) then Some PRun else None).
        { intros k. by rewrite spawn_lookup, Hp, lookup_empty. }
        split; [|split; [constructor|split; [|split]]].
        * intros k p. rewrite L. case_decide; [done|done].
        * intros k Hk. by apply not_elem_of_nil in Hk.
        * intros k snap. rewrite L. case_decide; done.
        * intros _. split; [|split].
          -- intros k snap. rewrite L. case_decide; done.
          -- intros k k' snap snap'. rewrite L. case_decide; done.
          -- intros k (H1 & H2 & _). right. rewrite L. case_decide as D'; [by eexists|]. by destruct D'.
    - destruct (posts st !! k) as [[|snap]|] eqn:Ek; [|done|done]. destruct (replies k) eqn:Er; [done|].
      injection H as <-. constructor; cbn [wg posts waiting wgdata answers]; [| |done].
      + rewrite map_size_delete, Ek. cbn. lia.
      + destruct Iw as [[_ Hp]|(r & W & A1 & A2 & A3 & A4 & A5)]; [rewrite Hp, lookup_empty in Ek; done|].
        right. exists r. split; [done|]. split; [|split; [done|split; [|split]]].
        * intros k' p [_ Hk]%lookup_delete_Some. by eapply A1.
        * intros k' Hk. destruct (A3 _ Hk). split; [done|]. apply lookup_delete_None. by right.
        * intros k' snap [_ Hk]%lookup_delete_Some. destruct (A4 _ _ Hk) as (B1 & B2 & B3).
          split; [done|]. split; [done|]. intros k2 Hk2. destruct (B3 _ Hk2). split; [done|].
          apply lookup_delete_None. by right.
        * intros C. destruct (A5 C) as (B1 & B2 & B3). split; [|split].
          -- intros k' snap [_ Hk]%lookup_delete_Some. by eapply B1.
          -- intros k1 k2 s1 s2 [_ H1]%lookup_delete_Some [_ H2]%lookup_delete_Some. by eapply B2.
          -- intros k' Hk. destruct (B3 _ Hk) as [?|?]; [by left|]. right.
             rewrite lookup_delete_ne; [done|]. intros <-. destruct Hk as (_ & _ & Hk). congruence.
    - destruct (posts st !! k) as [[|snap]|] eqn:Ek; [|done|done]. destruct (replies k) eqn:Er; [|done].
      injection H as <-. constructor; cbn [wg posts waiting wgdata answers]; [| |done].
      + rewrite map_size_insert_Some by (rewrite Ek; by eexists). done.
      + destruct Iw as [[_ Hp]|(r & W & A1 & A2 & A3 & A4 & A5)]; [rewrite Hp, lookup_empty in Ek; done|].
        right. exists r. split; [done|].
        assert (N : ∀ k', posts st !! k' = None → <[k := PRead (wgdata st)]> (posts st) !! k' = None).
        { intros k' Hk. rewrite lookup_insert_ne; [done|]. intros <-. congruence. }
        split; [|split; [done|split; [|split]]].
        * intros k' p Hk. destruct (decide (k = k')) as [<-|]; [by eapply A1|].
          rewrite lookup_insert_ne in Hk by done. by eapply A1.
        * intros k' Hk. destruct (A3 _ Hk). split; [done|]. by apply N.
        * intros k' snap Hk. destruct (decide (k = k')) as [<-|].
          -- rewrite lookup_insert in Hk. injection Hk as <-. split; [done|]. split; [done|].
             intros k2 Hk2. destruct (A3 _ Hk2). split; [done|]. by apply N.
          -- rewrite lookup_insert_ne in Hk by done. destruct (A4 _ _ Hk) as (B1 & B2 & B3).
             split; [done|]. split; [done|]. intros k2 Hk2. destruct (B3 _ Hk2). split; [done|]. by apply N.
        * intros C. destruct (A5 C) as (B1 & B2 & B3). pose proof (Hr C k eq_refl) as Hno. split; [|split].
          -- intros k' snap Hk. destruct (decide (k = k')) as [<-|].
             ++ rewrite lookup_insert in Hk. by injection Hk as <-.
             ++ rewrite lookup_insert_ne in Hk by done. by destruct (Hno _ _ Hk).
          -- intros k1 k2 s1 s2 H1 H2. destruct (decide (k = k1)) as [<-|], (decide (k = k2)) as [<-|]; [done| | |].
             ++ rewrite lookup_insert_ne in H2 by done. by destruct (Hno _ _ H2).
             ++ rewrite lookup_insert_ne in H1 by done. by destruct (Hno _ _ H1).
             ++ rewrite lookup_insert_ne in H1 by done. by destruct (Hno _ _ H1).
          -- intros k' Hk. destruct (B3 _ Hk) as [?|?]; [by left|]. right.
             destruct (decide (k = k')) as [<-|]; [rewrite lookup_insert; by eexists|by rewrite lookup_insert_ne by done].
    - destruct (posts st !! k) as [[|snap]|] eqn:Ek; [done| |done].
      injection H as <-. constructor; cbn [wg posts waiting wgdata answers]; [| |done].
      + rewrite map_size_delete, Ek. cbn. lia.
      + destruct Iw as [[_ Hp]|(r & W & A1 & A2 & A3 & A4 & A5)]; [rewrite Hp, lookup_empty in Ek; done|].
        right. exists r. split; [done|]. destruct (A4 _ _ Ek) as (E1 & E2 & E3).
        assert (Hk : k ∉ snap) by (intros Hk; destruct (E3 _ Hk); congruence).
        split; [|split; [|split; [|split]]].
        * intros k' p [_ Hk']%lookup_delete_Some. by eapply A1.
        * apply NoDup_app. split; [done|]. split; [|apply NoDup_singleton].
          intros x Hx ->%elem_of_list_singleton. done.
        * intros k' [Hk'| ->%elem_of_list_singleton]%elem_of_app.
          -- destruct (E3 _ Hk'). split; [done|]. apply lookup_delete_None. by right.
          -- split; [|apply lookup_delete]. destruct (A1 _ _ Ek). done.
        * intros k' snap' [_ Hk']%lookup_delete_Some. destruct (A4 _ _ Hk') as (B1 & B2 & B3).
          split; [done|]. split; [done|]. intros k2 Hk2. destruct (B3 _ Hk2). split; [done|].
          apply lookup_delete_None. by right.
        * intros C. destruct (A5 C) as (B1 & B2 & B3). split; [|split].
          -- intros k' snap' [Hne Hk']%lookup_delete_Some. destruct Hne. by eapply B2.
          -- intros k1 k2 s1 s2 [_ H1]%lookup_delete_Some [_ H2]%lookup_delete_Some. by eapply B2.
          -- intros k' Hk'. rewrite (B1 _ _ Ek). destruct (B3 _ Hk') as [?|?].
             ++ left. apply elem_of_app. by left.
             ++ destruct (decide (k = k')) as [<-|]; [left; apply elem_of_app; right; by apply elem_of_list_singleton|].
                right. by rewrite lookup_delete_ne.
    - case_decide as D; [|done]. destruct D as [D1 D2]. injection H as <-.
      destruct Iw as [[W _]|(r' & W & A1 & A2 & A3 & A4 & A5)]; [rewrite W in D1; set_solver|].
      assert (r' = r) as -> by (rewrite W in D1; set_solver).
      assert (Hp : posts st = ∅) by (apply map_size_empty_inv; lia).
      constructor; cbn [wg posts waiting wgdata answers]; [done|left; split; [rewrite W; set_solver|done]|].
      intros r2 a Ha. destruct (decide (r = r2)) as [<-|].
      + rewrite lookup_insert in Ha. injection Ha as <-. split; [done|]. split; [intros k Hk; by apply A3|].
        intros C k Hk. destruct (A5 C) as (_ & _ & B3). destruct (B3 _ Hk) as [?|Hx]; [done|].
        rewrite Hp, lookup_empty in Hx. by destruct Hx.
      + rewrite lookup_insert_ne in Ha by done. by apply Ia.
  Qed.

  Lemma inv_run calm ls : ∀ st, run ls gInit = Some st → oneAtATime hosts replies ls →
    (calm = true → apart hosts replies ls) → inv calm st.
  Proof.
    induction ls as [|l ls IH] using rev_ind; intros st H Ho Ha.
    - injection H as <-. apply inv_init.
    - rewrite run_snoc in H. destruct (run ls gInit) as [st1|] eqn:E; [|done]. cbn in H.
      apply (inv_step calm l st1); [|done| |].
      + apply IH; [done| |].
        * intros ls1 r ls2 st2 -> Hr. apply (Ho ls1 r (ls2 ++ [l]) st2); [|done]. by rewrite <- app_assoc.
        * intros C ls1 k ls2 st2 -> Hr. apply (Ha C ls1 k (ls2 ++ [l]) st2); [|done]. by rewrite <- app_assoc.
      + intros r ->. by apply (Ho ls r [] st1).
      + intros C k ->. by apply (Ha C ls k [] st1).
  Qed.

  Lemma wanted_elem r k : k ∈ wanted hosts replies r ↔ isOk r k.
  Proof.
    unfold wanted, isOk. rewrite elem_of_list_filter, elem_of_list_fmap. destruct k as [a b]. cbn. split.
    - intros (H1 & h & [= -> ->] & H2). apply elem_of_seq in H2. split; [done|]. split; [lia|done].
    - intros (-> & H1 & H2). split; [done|]. exists b. split; [done|]. apply elem_of_seq. lia.
  Qed.
  Lemma wanted_nodup r : NoDup (wanted hosts replies r).
  Proof. apply NoDup_filter, NoDup_fmap_2; [by intros ? ? [=]|apply NoDup_seq]. Qed.

  Lemma subset_lem ls st r a : run ls gInit = Some st → oneAtATime hosts replies ls →
    answers st !! r = Some a → a ⊆+ wanted hosts replies r.
  Proof.
    intros H Ho Ha. assert (I : inv false st) by (by apply (inv_run false ls)).
    destruct (i_ans _ _ I _ _ Ha) as (H1 & H2 & _). apply NoDup_submseteq; [done|].
    intros k Hk. apply wanted_elem. by apply H2.
  Qed.
  Lemma complete_lem ls st r a : run ls gInit = Some st → oneAtATime hosts replies ls → apart hosts replies ls →
    answers st !! r = Some a → a ≡ₚ wanted hosts replies r.
  Proof.
    intros H Ho Hp Ha. assert (I : inv true st) by (by apply (inv_run true ls)).
    destruct (i_ans _ _ I _ _ Ha) as (H1 & H2 & H3). apply NoDup_Permutation; [done|apply wanted_nodup|].
    intros k. rewrite wanted_elem. split; [apply H2|by apply H3].
  Qed.
End proofs.

(** to read off a concrete run *)
Lemma run_wit {A} (h : nat) (f : nat * nat → bool) ls (g : GS → A) (v : A) :
  (s ← gRun h f ls gInit; Some (g s)) = Some v → ∃ st, gRun h f ls gInit = Some st ∧ g st = v.
Proof. destruct (gRun h f ls gInit) as [st|]; [|done]. cbn. intros [= <-]. eauto. Qed.
