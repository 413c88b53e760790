(** Proofs for HasDoc next to running workers. *)
From Verif Require Import ModelHasDoc SpecHasDoc.

Record hwf (n : nat) (st : HS) : Prop := {
  hw_cur : ∃ arr, arrays st !! cur st = Some arr ∧ (slen st <= length arr)%nat;
  hw_len : (n <= slen st)%nat;
  hw_in : ∀ w a s, inside st !! w = Some (a, s) → (a < length (arrays st))%nat ∧ (s < n)%nat ∧
            ∃ c, cellAt st a s = Some c ∧ lk c = true;
  hw_excl : ∀ w w' a s, inside st !! w = Some (a, s) → inside st !! w' = Some (a, s) → w = w' }.

Lemma cell_set st a s c a' s' :
  cellAt (setCell a s c st) a' s' =
  if decide (a = a' ∧ s = s' ∧ is_Some (cellAt st a s)) then Some c else cellAt st a' s'.
Proof.
  unfold cellAt, setCell. cbn. destruct (decide (a = a')) as [<-|Hne].
  - rewrite list_lookup_alter. destruct (arrays st !! a) as [l|] eqn:E; cbn.
    2:{ case_decide as D; [|done]. destruct D as (_ & _ & [? ?]). done. }
    destruct (decide (s = s')) as [<-|Hs].
    + destruct (l !! s) eqn:El.
      * rewrite list_lookup_insert by (by eapply lookup_lt_Some). case_decide as D; [done|]. by destruct D.
      * rewrite list_insert_ge by (by apply lookup_ge_None). rewrite El.
        case_decide as D; [|done]. destruct D as (_ & _ & [? ?]). done.
    + rewrite list_lookup_insert_ne by done. case_decide as D; [|done]. by destruct D as (_ & ? & _).
  - rewrite list_lookup_alter_ne by done. case_decide as D; [|done]. by destruct D.
Qed.

Lemma cell_cur st a s c b : cellAt (mkHS (arrays (setCell a s c st)) b (slen st) ∅) = cellAt (setCell a s c st).
Proof. done. Qed.

Section proofs.
  Variable grow : nat → nat.
  Variable n : nat.
  Notation step := (hdStep grow n).
  Notation run := (hdRun grow n).

  (** what an append does to the shards of the engine *)
  Lemma append_lem st st' : hwf n st → hAppend grow st = Some st' →
    (∀ s, (s < n)%nat → cellAt st' (cur st') s = cellAt st (cur st) s) ∧
    inside st' = inside st ∧ slen st' = S (slen st) ∧
    (∀ a s, (a < length (arrays st))%nat → (s < n)%nat → cellAt st' a s = cellAt st a s) ∧
    (length (arrays st) <= length (arrays st'))%nat ∧
    ((¬ full st ∧ cur st' = cur st ∧ length (arrays st') = length (arrays st)) ∨
     (full st ∧ cur st' = length (arrays st) ∧ length (arrays st') = S (length (arrays st)))) ∧
    ∃ arr, arrays st' !! cur st' = Some arr ∧ (slen st' <= length arr)%nat.
  Proof.
    intros W H. destruct (hw_cur _ _ W) as (arr & E & Hl). pose proof (hw_len _ _ W) as Hn.
    unfold hAppend in H. rewrite E in H. cbn [mbind option_bind] in H.
    destruct (Nat.ltb_spec (slen st) (length arr)) as [Hlt|Hge].
    - injection H as <-. cbn [cur inside slen arrays].
      assert (C : ∀ a s, (s < n)%nat → cellAt (mkHS (arrays (setCell (cur st) (slen st) blank st)) (cur st) (S (slen st)) (inside st)) a s = cellAt st a s).
      { intros a s Hs. change (cellAt (setCell (cur st) (slen st) blank st) a s = cellAt st a s).
        rewrite cell_set. case_decide as D; [|done]. destruct D as (_ & D & _). lia. }
      split; [intros; by apply C|]. split; [done|]. split; [done|]. split; [intros; by apply C|].
      cbn [setCell arrays]. rewrite !alter_length.
      split; [lia|]. split.
      + left. split; [|done]. intros (arr' & E' & L'). assert (arr' = arr) by congruence. subst. lia.
      + cbn. rewrite list_lookup_alter, E. cbn. eexists. split; [done|]. rewrite insert_length. lia.
    - injection H as <-. cbn [cur inside slen arrays].
      assert (Eq : length arr = slen st) by lia.
      set (l := take (slen st) arr ++ replicate (Nat.max (grow (length arr)) (S (slen st)) - slen st) blank).
      assert (Cold : ∀ a s, (a < length (arrays st))%nat →
        cellAt (mkHS (arrays st ++ [l]) (length (arrays st)) (S (slen st)) (inside st)) a s = cellAt st a s).
      { intros a s Ha. unfold cellAt. cbn. by rewrite lookup_app_l. }
      split.
      + intros s Hs. unfold cellAt. cbn. rewrite lookup_app_r by lia. rewrite Nat.sub_diag. cbn.
        rewrite E. cbn. subst l. rewrite lookup_app_l by (rewrite take_length; lia).
        by rewrite lookup_take by lia.
      + split; [done|]. split; [done|]. split; [intros; by apply Cold|].
        rewrite app_length. cbn [length]. split; [lia|]. split.
        * right. split; [by exists arr|]. split; [done|lia].
        * exists l. split; [by rewrite lookup_app_r, Nat.sub_diag by lia|].
          subst l. rewrite app_length, take_length, replicate_length. lia.
  Qed.

  Lemma step_wf l st st' : hwf n st → step l st = Some st' → hwf n st'.
  Proof.
    intros W H. destruct l as [w s|w|]; cbn [hdStep] in H.
    - destruct (inside st !! w) eqn:Ew; [done|]. destruct (Nat.ltb_spec s n) as [Hs|]; [|done].
      destruct (cellAt st (cur st) s) as [c|] eqn:Ec; [|done]. cbn in H. destruct (lk c) eqn:El; [done|].
      injection H as <-.
      set (c' := mkCell true (val c)).
      assert (C : ∀ a' s', cellAt (mkHS (arrays (setCell (cur st) s c' st)) (cur st) (slen st)
        (<[w:=(cur st, s)]> (inside st))) a' s' = if decide (cur st = a' ∧ s = s') then Some c' else cellAt st a' s').
      { intros a' s'. transitivity (cellAt (setCell (cur st) s c' st) a' s'); [done|]. rewrite cell_set, Ec.
        repeat case_decide; try done; exfalso; naive_solver. }
      destruct (hw_cur _ _ W) as (arr & E & Hl).
      constructor; cbn [cur slen inside arrays].
      + cbn. rewrite list_lookup_alter, E. cbn. eexists. split; [done|]. by rewrite insert_length.
      + apply (hw_len _ _ W).
      + intros w' a s' Hw. cbn [setCell arrays]. rewrite alter_length. rewrite C. destruct (decide (w = w')) as [<-|].
        * rewrite lookup_insert in Hw. injection Hw as <- <-.
          split; [by eapply lookup_lt_Some|]. split; [done|].
          case_decide as D; [by eexists|]. by destruct D.
        * rewrite lookup_insert_ne in Hw by done. destruct (hw_in _ _ W _ _ _ Hw) as (H1 & H2 & H3).
          split; [done|]. split; [done|]. case_decide; [by eexists|done].
      + intros w1 w2 a s'. assert (X : ∀ w', inside st !! w' = Some (cur st, s) → False).
        { intros w' Hw. destruct (hw_in _ _ W _ _ _ Hw) as (_ & _ & c2 & E2 & L2). congruence. }
        destruct (decide (w = w1)) as [<-|], (decide (w = w2)) as [<-|];
          rewrite ?lookup_insert, ?lookup_insert_ne by done; try done.
        * intros [= <- <-] Hw. destruct (X _ Hw).
        * intros Hw [= <- <-]. destruct (X _ Hw).
        * apply (hw_excl _ _ W).
    - destruct (inside st !! w) as [[a s]|] eqn:Ew; [|done].
      destruct (cellAt st a s) as [c|] eqn:Ec; [|done]. cbn in H. injection H as <-.
      set (c' := mkCell false (val c + 1)).
      assert (C : ∀ a' s', cellAt (mkHS (arrays (setCell a s c' st)) (cur st) (slen st)
        (delete w (inside st))) a' s' = if decide (a = a' ∧ s = s') then Some c' else cellAt st a' s').
      { intros a' s'. transitivity (cellAt (setCell a s c' st) a' s'); [done|]. rewrite cell_set, Ec.
        repeat case_decide; try done; exfalso; naive_solver. }
      destruct (hw_cur _ _ W) as (arr & E & Hl).
      constructor; cbn [cur slen inside arrays].
      + cbn. destruct (decide (a = cur st)) as [->|].
        * rewrite list_lookup_alter, E. cbn. eexists. split; [done|]. by rewrite insert_length.
        * rewrite list_lookup_alter_ne by done. eauto.
      + apply (hw_len _ _ W).
      + intros w' a' s' Hw. apply lookup_delete_Some in Hw as [Hne Hw].
        cbn [setCell arrays]. rewrite alter_length. rewrite C. destruct (hw_in _ _ W _ _ _ Hw) as (H1 & H2 & H3).
        split; [done|]. split; [done|]. case_decide as D; [|done]. destruct D as [<- <-].
        destruct Hne. by apply (hw_excl _ _ W w w' a s).
      + intros w1 w2 a' s' [_ H1]%lookup_delete_Some [_ H2]%lookup_delete_Some. by apply (hw_excl _ _ W w1 w2 a' s').
    - destruct (append_lem _ _ W H) as (A1 & A2 & A3 & A4 & A5 & A6 & A7).
      constructor; [done|rewrite A3; pose proof (hw_len _ _ W); lia| |rewrite A2; apply (hw_excl _ _ W)].
      intros w a s Hw. rewrite A2 in Hw. destruct (hw_in _ _ W _ _ _ Hw) as (H1 & H2 & H3).
      split; [lia|]. split; [done|]. by rewrite A4.
  Qed.

  Lemma run_wf ls : ∀ st st', hwf n st → run ls st = Some st' → hwf n st'.
  Proof.
    induction ls as [|l ls IH]; intros st st' W H; cbn in H; [by injection H as <-|].
    destruct (step l st) as [st1|] eqn:E; [|done]. cbn in H. eapply IH; [|done]. by eapply step_wf.
  Qed.

  Lemma init_wf extra : hwf n (hdInit n extra).
  Proof.
    constructor; cbn.
    - eexists. split; [done|]. rewrite replicate_length. lia.
    - done.
    - intros w a s Hw. by rewrite lookup_empty in Hw.
    - intros w w' a s Hw. by rewrite lookup_empty in Hw.
  Qed.

  (** a copied, locked cell stays locked *)
  Definition stuck (s : nat) (v : Z) (st : HS) : Prop :=
    cellAt st (cur st) s = Some (mkCell true v) ∧ ∀ w, inside st !! w ≠ Some (cur st, s).

  Lemma stuck_step s v l st st' : (s < n)%nat →
    hwf n st → stuck s v st → step l st = Some st' → stuck s v st'.
  Proof.
    intros Hs W [S1 S2] H. destruct l as [w s'|w|]; cbn [hdStep] in H.
    - destruct (inside st !! w) eqn:Ew; [done|]. destruct (Nat.ltb_spec s' n) as [Hs'|]; [|done].
      destruct (cellAt st (cur st) s') as [c|] eqn:Ec; [|done]. cbn in H. destruct (lk c) eqn:El; [done|].
      injection H as <-.
      assert (s ≠ s') as Hne by (intros <-; rewrite Ec in S1; injection S1 as ->; done).
      split.
      + change (cellAt (setCell (cur st) s' (mkCell true (val c)) st) (cur st) s = Some (mkCell true v)).
        rewrite cell_set. case_decide as D; [|done]. destruct D as (_ & ? & _). congruence.
      + intros w'. cbn. destruct (decide (w = w')) as [<-|];
          [rewrite lookup_insert; congruence|rewrite lookup_insert_ne by done; apply S2].
    - destruct (inside st !! w) as [[a s']|] eqn:Ew; [|done].
      destruct (cellAt st a s') as [c|] eqn:Ec; [|done]. cbn in H. injection H as <-. split.
      + change (cellAt (setCell a s' (mkCell false (val c + 1)) st) (cur st) s = Some (mkCell true v)).
        rewrite cell_set. case_decide as D; [|done]. destruct D as (-> & -> & _). by destruct (S2 w).
      + intros w' Hw. cbn in Hw. apply lookup_delete_Some in Hw as [_ Hw]. by destruct (S2 w').
    - destruct (append_lem _ _ W H) as (A1 & A2 & A3 & A4 & A5 & A6 & A7). split.
      + by rewrite A1.
      + intros w Hw. rewrite A2 in Hw. destruct A6 as [(_ & Ec & _)|(_ & Ec & _)].
        * rewrite Ec in Hw. by destruct (S2 w).
        * destruct (hw_in _ _ W _ _ _ Hw). lia.
  Qed.

  Lemma stuck_run s v ls : (s < n)%nat → ∀ st st', hwf n st → stuck s v st → run ls st = Some st' → stuck s v st'.
  Proof.
    intros Hs. induction ls as [|l ls IH]; intros st st' W S H; cbn in H; [by injection H as <-|].
    destruct (step l st) as [st1|] eqn:E; [|done]. cbn in H.
    eapply IH; [| |done]; [by eapply step_wf|by eapply stuck_step].
  Qed.

  Lemma copied_stuck st st' s : hwf n st → (s < n)%nat → workerIn st s → full st → step HAppend st = Some st' →
    ∃ v, seen st s = Some v ∧ stuck s v st'.
  Proof.
    intros W Hs [w Hw] Hf H. cbn in H. destruct (append_lem _ _ W H) as (A1 & A2 & A3 & A4 & A5 & A6 & A7).
    destruct (hw_in _ _ W _ _ _ Hw) as (H1 & _ & [b v] & Hc & Hl). cbn in Hl. subst b.
    exists v. split; [unfold seen; by rewrite Hc|]. split; [by rewrite A1|].
    intros w' Hw'. rewrite A2 in Hw'. destruct A6 as [(Hnf & _ & _)|(_ & Ec & _)]; [done|].
    destruct (hw_in _ _ W _ _ _ Hw'). lia.
  Qed.

  Lemma deadlock_lem extra ls st st' s :
    run ls (hdInit n extra) = Some st → (s < n)%nat → workerIn st s → full st →
    step HAppend st = Some st' →
    ¬ reachableAgain grow n st' s ∧
    ∀ ls' st'', run ls' st' = Some st'' → seen st'' s = seen st s.
  Proof.
    intros H Hs Hw Hf Ha. pose proof (run_wf _ _ _ (init_wf extra) H) as W.
    destruct (copied_stuck _ _ _ W Hs Hw Hf Ha) as (v & Hv & S).
    pose proof (step_wf _ _ _ W Ha) as W'. split.
    - intros (ls' & w & st1 & st2 & Hr & He). destruct (stuck_run s v ls' Hs _ _ W' S Hr) as [S1 _].
      cbn [hdStep] in He. destruct (inside st1 !! w); [done|]. destruct (Nat.ltb_spec s n); [|done].
      rewrite S1 in He. done.
    - intros ls' st'' Hr. destruct (stuck_run s v ls' Hs _ _ W' S Hr) as [S1 _].
      rewrite Hv. unfold seen. by rewrite S1.
  Qed.

  (** an append takes no free shard away and changes no value *)
  Lemma quiet_lem extra ls st st' :
    run ls (hdInit n extra) = Some st → step HAppend st = Some st' →
    (∀ s, (s < n)%nat → seen st' s = seen st s) ∧ slen st' = S (slen st) ∧
    (∀ w s, is_Some (step (HEnter w s) st) → is_Some (step (HEnter w s) st')).
  Proof.
    intros H Ha. pose proof (run_wf _ _ _ (init_wf extra) H) as W. cbn in Ha.
    destruct (append_lem _ _ W Ha) as (A1 & A2 & A3 & A4 & A5 & A6 & A7).
    split; [intros s Hs; unfold seen; by rewrite A1|]. split; [done|].
    intros w s. cbn [hdStep]. rewrite A2. destruct (inside st !! w); [done|].
    destruct (Nat.ltb_spec s n); [|done]. rewrite A1 by done.
    destruct (cellAt st (cur st) s) as [c|]; [|done]. cbn [mbind option_bind].
    destruct (lk c); [done|]. eauto.
  Qed.

  (** locks of the engine's shards are held by workers inside them *)
  Definition held (st : HS) : Prop :=
    ∀ s, (s < n)%nat → ∃ c, cellAt st (cur st) s = Some c ∧ (lk c = true → workerIn st s).

  Lemma held_step l st st' : hwf n st → held st →
    (l = HAppend → full st → inside st = ∅) → step l st = Some st' → held st'.
  Proof.
    intros W Hh Hc H s Hs. destruct (Hh s Hs) as (c & Ec & Hl). destruct l as [w s'|w|]; cbn [hdStep] in H.
    - destruct (inside st !! w) eqn:Ew; [done|]. destruct (Nat.ltb_spec s' n) as [Hs'|]; [|done].
      destruct (cellAt st (cur st) s') as [c'|] eqn:Ec'; [|done]. cbn [mbind option_bind] in H.
      destruct (lk c') eqn:El; [done|]. injection H as <-. cbn [cur setCell].
      change (∃ c0, cellAt (setCell (cur st) s' (mkCell true (val c')) st) (cur st) s = Some c0 ∧
        (lk c0 = true → workerIn (mkHS (arrays (setCell (cur st) s' (mkCell true (val c')) st)) (cur st) (slen st)
           (<[w:=(cur st, s')]> (inside st))) s)).
      rewrite cell_set. case_decide as D.
      + destruct D as (_ & -> & _). eexists. split; [done|]. intros _. exists w. cbn. by rewrite lookup_insert.
      + exists c. split; [done|]. intros L. destruct (Hl L) as [w' Hw']. exists w'. cbn.
        rewrite lookup_insert_ne; [done|]. intros ->. congruence.
    - destruct (inside st !! w) as [[a s']|] eqn:Ew; [|done].
      destruct (cellAt st a s') as [c'|] eqn:Ec'; [|done]. cbn [mbind option_bind] in H. injection H as <-.
      change (∃ c0, cellAt (setCell a s' (mkCell false (val c' + 1)) st) (cur st) s = Some c0 ∧
        (lk c0 = true → workerIn (mkHS (arrays (setCell a s' (mkCell false (val c' + 1)) st)) (cur st) (slen st)
           (delete w (inside st))) s)).
      rewrite cell_set. case_decide as D.
      + eexists. split; [done|]. done.
      + exists c. split; [done|]. intros L. destruct (Hl L) as [w' Hw']. exists w'. cbn.
        rewrite lookup_delete_ne; [done|]. intros ->. rewrite Ew in Hw'. injection Hw' as -> ->.
        apply D. split; [done|]. split; [done|]. by eexists.
    - destruct (append_lem _ _ W H) as (A1 & A2 & A3 & A4 & A5 & A6 & A7).
      rewrite A1 by done. exists c. split; [done|]. intros L. destruct (Hl L) as [w Hw].
      destruct A6 as [(_ & E & _)|(Hf & _)].
      + exists w. by rewrite A2, E.
      + by rewrite Hc, lookup_empty in Hw.
  Qed.

  Lemma held_run ls : ∀ st st', hwf n st → held st → calm grow n ls st → run ls st = Some st' → held st'.
  Proof.
    induction ls as [|l ls IH]; intros st st' W Hh Hc H; cbn in H; [by injection H as <-|].
    destruct (step l st) as [st1|] eqn:E; [|done]. cbn in H.
    apply (IH st1); [by eapply step_wf| | |done].
    - eapply held_step; [done|done| |done]. intros -> Hf. by apply (Hc [] ls st).
    - intros ls1 ls2 st2 -> Hr Hf. apply (Hc (l :: ls1) ls2 st2); [done| |done]. cbn. by rewrite E.
  Qed.

  Lemma calm_lem extra ls st :
    run ls (hdInit n extra) = Some st → calm grow n ls (hdInit n extra) →
    ∀ w s, inside st !! w = None → (s < n)%nat → ¬ workerIn st s → is_Some (step (HEnter w s) st).
  Proof.
    intros H Hc w s Hw Hs Hn. assert (Hh : held st).
    { apply (held_run ls (hdInit n extra)); [apply init_wf| |done|done].
      intros s' Hs'. exists blank. split; [|done]. unfold cellAt. cbn.
      apply lookup_replicate. split; [done|lia]. }
    destruct (Hh s Hs) as (c & Ec & Hl). cbn [hdStep]. rewrite Hw.
    destruct (Nat.ltb_spec s n); [|lia]. rewrite Ec. cbn [mbind option_bind].
    destruct (lk c); [destruct Hn; by apply Hl|]. eauto.
  Qed.

  (** the bad schedule exists for every configuration *)
  Lemma run_app ls1 ls2 st : run (ls1 ++ ls2) st = st' ← run ls1 st; run ls2 st'.
  Proof.
    revert st. induction ls1 as [|l ls1 IH]; intros st; [done|]. cbn.
    destruct (step l st); [cbn; apply IH|done].
  Qed.

  Lemma fill_lem extra : ∀ k, (k <= extra)%nat → run (replicate k HAppend) (hdInit n extra) =
    Some (mkHS [replicate (n + extra) blank] 0 (n + k) ∅).
  Proof.
    induction k as [|k IH]; intros Hk.
    - cbn. unfold hdInit. by rewrite Nat.add_0_r.
    - replace (S k) with (k + 1)%nat by lia. rewrite replicate_add, run_app, IH by lia.
      cbn [mbind option_bind replicate hdRun hdStep]. unfold hAppend. cbn [arrays cur slen lookup list_lookup mbind option_bind].
      rewrite replicate_length. destruct (Nat.ltb_spec (n + k) (n + extra)); [|lia]. cbn [mbind option_bind].
      cbn. f_equal. f_equal; [|lia]. f_equal. by apply insert_replicate.
  Qed.

  Lemma witness_lem extra s : (s < n)%nat →
    ∃ ls st, run ls (hdInit n extra) = Some st ∧ workerIn st s ∧ full st ∧ is_Some (step HAppend st).
  Proof.
    intros Hs. exists (replicate extra HAppend ++ [HEnter 0 s]).
    rewrite run_app, fill_lem by lia. cbn [mbind option_bind hdRun hdStep inside].
    rewrite lookup_empty. destruct (Nat.ltb_spec s n); [|lia].
    assert (E : cellAt (mkHS [replicate (n + extra) blank] 0 (n + extra) ∅) 0 s = Some blank).
    { unfold cellAt. cbn. apply lookup_replicate. split; [done|lia]. }
    cbn [cur]. rewrite E. cbn [mbind option_bind lk blank]. eexists. split; [done|]. split; [|split].
    - exists 0%nat. cbn. by rewrite lookup_insert.
    - eexists. split; [done|]. cbn. by rewrite insert_length, replicate_length.
    - cbn [hdStep]. unfold hAppend. cbn. rewrite insert_length, replicate_length.
      destruct (n + extra)%nat; [eauto|]. destruct (_ <=? _)%nat; eauto.
  Qed.
End proofs.
