(** Kept apart, all calls return: liveness of the pipeline with lock-level indexers. *)
From Verif Require Import SpecFine SpecIndexer SpecRoute SpecPipe SpecLive ProofPipe ProofLocks ProofGhost ProofSeqEq ProofOrder ProofFine ProofFineSim ProofFineThms ProofFineCycle.
From Verif Require ProofLive.

Lemma opt_range {A} (f : nat → option A) (m : nat) : (∀ t, (t < m)%nat → f t = None) ∨ ∃ t, (t < m)%nat ∧ is_Some (f t).
Proof.
  induction m as [|m [IH|(t & Ht & H)]]; [left; lia| |right; exists t; split; [lia|done]].
  destruct (f m) eqn:E; [right; exists m; split; [lia|by rewrite E]|left]. intros t Ht. destruct (decide (t = m)) as [->|]; [done|]. apply IH. lia.
Qed.
Lemma finished_dec c : SpecLocks.finished c ∨ ¬ SpecLocks.finished c.
Proof.
  unfold SpecLocks.finished. assert (D : ∀ ths : list thread, (∀ th, th ∈ ths → tPc th = Idle ∧ tCalls th = []) ∨ ¬ (∀ th, th ∈ ths → tPc th = Idle ∧ tCalls th = [])); [|apply D].
  intros ths. induction ths as [|th ths [IH|IH]]; [left; by intros ? ?%elem_of_nil| |right; intros Hx; apply IH; intros; apply Hx; by right].
  destruct (decide (tPc th = Idle)) as [E|E]; [|right; intros Hx; destruct (Hx th); [left|done]].
  destruct (tCalls th) eqn:E2; [|right; intros Hx; destruct (Hx th); [left|congruence]].
  left. intros th' [->|Hin]%elem_of_cons; [done|auto].
Qed.

(** * Each channel of an indexer has one worker *)
Section One.
  Context (murmur : string → Z) (n : Z) (only reqsFirst : bool) (cap : chan → nat).
  Context (Hn : 1 <= n < 2^32).
  Notation pst := (pstep murmur n only reqsFirst cap).
  Notation reachp nseg progs := (pipe_reach murmur n only reqsFirst cap nseg progs).
  Definition lanes (s : pstate) : list chan := filter (λ ch, ch ≠ CSeg) (omap pChan (sProcs s)).
  Definition oneInv (s : pstate) : Prop :=
    Forall (λ p, Forall (okact (pChan p)) (pActs p)) (sProcs s) ∧ Forall (λ cm, cm.1 = chOf cm.2) (sNet s) ∧ NoDup (lanes s).
  Lemma lanes_init nseg progs : NoDup (lanes (pipeInit n nseg progs)).
  Proof.
    unfold lanes, pipeInit. cbn [sProcs]. rewrite !omap_app, !filter_app.
    assert (omap pChan (client <$> progs) = []) as ->. { induction progs as [|q l IH]; [done|]. cbn. by apply IH. }
    assert (filter (λ ch, ch ≠ CSeg) (omap pChan (replicate nseg (worker CSeg))) = []) as ->.
    { induction nseg as [|m IH]; [done|]. cbn. by apply IH. }
    change (filter (λ ch : chan, ch ≠ CSeg) []) with (@nil chan). cbn [app].
    pose proof (chans_init n Hn progs) as H. unfold pipeInit in H. cbn [sProcs] in H.
    rewrite !omap_app in H. apply NoDup_app in H as (_ & _ & H). apply NoDup_app in H as (_ & _ & H). by apply NoDup_filter.
  Qed.
  Lemma oneInv_reach nseg progs s : reachp nseg progs s → oneInv s.
  Proof.
    intros H. revert s H. apply (rtc_ind_r oneInv (pipeInit n nseg progs)).
    - split; [|split; [constructor|apply lanes_init]]. apply Forall_forall. intros p Hp.
      assert (pActs p = []) as ->; [|constructor]. cbn in Hp. rewrite !elem_of_app in Hp. destruct Hp as [(q & -> & _)%elem_of_list_fmap|[Hp|Hp]]; [done|..].
      + by apply elem_of_replicate in Hp as [-> _].
      + apply elem_of_list_join in Hp as (l & Hp & (i & -> & _)%elem_of_list_fmap).
        rewrite !elem_of_cons, elem_of_nil in Hp. by destruct Hp as [->|[->|[->|[->|[]]]]].
    - intros s1 s2 _ [k Hk] (I1 & I2 & I3). apply pstep_inv in Hk as (p & p' & net' & log' & Hp & Hs & ->).
      pose proof (ProofLive.procStep_chan murmur n only reqsFirst cap _ _ _ _ _ _ Hs) as Hc.
      assert (Hok : Forall (okact (pChan p)) (pActs p)) by exact (proj1 (Forall_lookup _ _) I1 k p Hp).
      destruct (okact_step murmur n only reqsFirst cap _ _ _ _ _ _ Hs Hok I2) as [Hok' I2'].
      split; [by apply Forall_insert|]. split; [done|]. unfold lanes in *. cbn [sProcs]. by rewrite (chans_insert _ _ _ _ Hp Hc).
  Qed.
  Lemma lane_unique (ps : list proc) (ch : chan) k k' p p' : ch ≠ CSeg → NoDup (filter (λ ch, ch ≠ CSeg) (omap pChan ps)) →
    ps !! k = Some p → ps !! k' = Some p' → pChan p = Some ch → pChan p' = Some ch → k = k'.
  Proof.
    intros Hs. assert (Hlt : ∀ k k' (p p' : proc) ps, (k < k')%nat → NoDup (filter (λ ch, ch ≠ CSeg) (omap pChan ps)) →
      ps !! k = Some p → ps !! k' = Some p' → pChan p = Some ch → pChan p' = Some ch → False).
    { clear -Hs. intros k k' p p' ps Hlt HN Hk Hk' Hp Hp'.
      apply elem_of_list_split_length in Hk as (l1 & l2 & -> & ->).
      rewrite lookup_app_r in Hk' by lia. destruct (k' - length l1)%nat as [|m] eqn:Em; [lia|]. cbn in Hk'.
      rewrite omap_app in HN. cbn in HN. rewrite Hp, filter_app in HN. apply NoDup_app in HN as (_ & _ & HN).
      rewrite filter_cons_True in HN by done. apply NoDup_cons in HN as [HN _]. apply HN.
      apply elem_of_list_filter. split; [done|]. apply elem_of_list_omap. exists p'. split; [by eapply elem_of_list_lookup_2|done]. }
    intros HN Hk Hk' Hp Hp'. destruct (Nat.lt_trichotomy k k') as [H|[H|H]]; [|done|]; exfalso.
    - by eapply (Hlt k k' p p').
    - by eapply (Hlt k' k p' p).
  Qed.
  Lemma one_caller nseg progs s k k' i o o' : kept_apart progs → reachp nseg progs s →
    calling s k i o → calling s k' i o' → k = k'.
  Proof.
    intros Hap Hr Hk Hk'. pose proof (one_side murmur n only reqsFirst cap Hn nseg progs s Hap Hr k k' i o o' Hk Hk') as Hside.
    destruct (oneInv_reach _ _ _ Hr) as (I1 & _ & I3).
    destruct Hk as (p & l & Hp & Ha), Hk' as (p' & l' & Hp' & Ha').
    pose proof (proj1 (Forall_lookup _ _) I1 k p Hp) as O1. pose proof (proj1 (Forall_lookup _ _) I1 k' p' Hp') as O2. cbn beta in O1, O2.
    rewrite Ha in O1. rewrite Ha' in O2. apply Forall_cons in O1 as [[[O1|O1] _] _], O2 as [[[O2|O2] _] _];
      try (destruct o; discriminate O1); try (destruct o'; discriminate O2).
    destruct o as [d f|id f], o' as [d' f'|id' f']; try discriminate Hside; cbn [chE] in O1, O2.
    - by eapply (lane_unique (sProcs s) (CIxAdd i)).
    - by eapply (lane_unique (sProcs s) (CIxRem i)).
  Qed.
End One.

Section Live.
  Context (murmur : string → Z) (n : Z) (only reqsFirst : bool) (cap : chan → nat).
  Context (log2 : F → F) (sortDocs : list DocIndex → list DocIndex).
  Notation pst := (pstep murmur n only reqsFirst cap).
  Notation reachp nseg progs := (pipe_reach murmur n only reqsFirst cap nseg progs).
  Notation fdo := (fineDo murmur n only reqsFirst cap log2 sortDocs).
  Notation fineS := (fineStep murmur n only reqsFirst cap log2 sortDocs).
  Notation cstep := (cstep log2 sortDocs).
  Context (Hn : 1 <= n < 2^32).
  Context (nseg : nat) (progs : list (list ecall)) (Hap : kept_apart progs).
  Context (x0 : Indexer) (stale : list string) (looks : nat → list (list query)).
  Notation reachf := (fine_reach murmur n only reqsFirst cap log2 sortDocs nseg progs x0 stale looks).
  Notation C := (Z.to_nat (DocCacheSize (initOptions x0))).

  (** What the goroutines inside the indexers do *)
  Lemma threads_reach s : zlen (addCache x0) <= DocCacheSize (initOptions x0) → reachf s →
    ∀ i sh, fShards s !! i = Some sh → capInv C (index_of sh) ∧ length (cThreads (fsC sh)) = (2 + length (looks i))%nat.
  Proof.
    intros Hx H. revert s H. apply (rtc_ind_r (λ s, ∀ i sh, fShards s !! i = Some sh → capInv C (index_of sh) ∧ length (cThreads (fsC sh)) = (2 + length (looks i))%nat) (fineInit n nseg progs x0 stale looks)).
    - intros i sh Hi. cbn [fShards fineInit] in Hi. rewrite list_lookup_fmap in Hi. apply fmap_Some in Hi as (j & Hj & ->).
      apply lookup_seq in Hj as [-> _]. split; [done|]. cbn. by rewrite fmap_length.
    - intros s1 s2 _ [m H] IH i sh' Hi. destruct (fine_cases _ _ _ _ _ _ _ _ _ _ H _ _ Hi) as (sh & Hsh & [E|[[t Ht]|(o & Ho & E)]]);
        destruct (IH _ _ Hsh) as [I1 I2]; unfold index_of in *.
      + by rewrite E.
      + destruct (measure_step log2 sortDocs C t _ _ Ht I1) as [I1' _]. split; [done|].
        apply cstep_inv in Ht as (th & _ & [(? & ? & _ & _ & E)|(? & ? & _ & _ & E)]); rewrite E; cbn [cThreads]; by rewrite insert_length.
      + rewrite E. cbn [startCall cShard cThreads]. by rewrite insert_length.
  Qed.
  Definition eff (i : nat) (m : fmove) (c : cstate) : cstate :=
    match m with
    | MLock i' t => if decide (i' = i) then match cstep t c with Some c' => c' | None => c end else c
    | MProc _ => c
    end.
  Lemma wait_step s m i k o sh : reachf s → fShards s !! i = Some sh → waiter o sh = Some k → calling (fPipe s) k (Z.of_nat i) o →
    m ≠ MProc k ∨ isIdle (sideOf o) (fsC sh) = false →
    ∃ sh', fShards (fine_turn fdo m s) !! i = Some sh' ∧ waiter o sh' = Some k ∧ calling (fPipe (fine_turn fdo m s)) k (Z.of_nat i) o ∧
      fsC sh' = eff i m (fsC sh).
  Proof.
    intros Hre Hi Hw Hc Hm. unfold fine_turn. destruct (fdo m s) as [s'|] eqn:H.
    2: { exists sh. repeat (split; [done|]). unfold eff. destruct m as [|i' t]; [done|]. case_decide as Ei; [|done]. subst i'.
         cbn [fineDo] in H. rewrite Hi in H. cbn [mbind option_bind] in H. by destruct (cstep t (fsC sh)). }
    pose proof (fine_pipe_any _ _ _ _ _ _ _ _ _ _ _ _ _ Hre) as Hp0.
    destruct m as [k'|i0 t]; cbn [fineDo] in H.
    - destruct (sProcs (fPipe s) !! k') as [p|] eqn:Hp; cbn [mbind option_bind] in H; [|done].
      destruct (callHead_dec (pActs p)) as [(i0 & o0 & l & Ea)|Hno].
      + rewrite Ea in H. assert (Hck : calling (fPipe s) k' i0 o0) by (by exists p, l).
        pose proof (calling_range murmur n only reqsFirst cap Hn _ _ _ _ _ _ Hp0 Hck) as Hi0.
        destruct (decide (k' = k)) as [->|Hk].
        { exfalso. destruct (calling_fun _ _ _ _ _ _ Hck Hc) as [-> ->]. destruct Hm as [Hm|Hm]; [done|].
          rewrite Nat2Z.id, Hi in H. cbn [mbind option_bind] in H. rewrite Hw, Hm in H. by destruct (decide _). }
        destruct (fShards s !! Z.to_nat i0) as [sh0|] eqn:H0; cbn [mbind option_bind] in H; [|done].
        destruct (decide (Z.to_nat i0 = i)) as [E0|Hne].
        { exfalso. apply Hk. replace (Z.of_nat i) with i0 in Hc by lia.
          by eapply (one_caller murmur n only reqsFirst cap Hn nseg progs (fPipe s)). }
        destruct (waiter o0 sh0) as [k2|] eqn:Hw0.
        * destruct (decide (k2 = k')) as [->|]; [|done]. destruct (isIdle (sideOf o0) (fsC sh0)); [|done].
          destruct (pst k' (fPipe s)) as [p'|] eqn:E; cbn [mbind option_bind] in H; [|done]. apply Some_inj_eq in H as <-.
          exists sh. cbn [fShards fPipe]. rewrite list_lookup_insert_ne by done. repeat (split; [done|]). split; [|done].
          eapply (call_step murmur n only reqsFirst cap k' (fPipe s) p' i0 o0); [done|done|congruence|done].
        * destruct (isIdle (sideOf o0) (fsC sh0)); [|done]. apply Some_inj_eq in H as <-. exists sh. cbn [fShards fPipe].
          rewrite list_lookup_insert_ne by done. done.
      + assert (Hgen : (p' ← pst k' (fPipe s); Some (mkFine p' (fShards s))) = Some s').
        { destruct (pActs p) as [|[[| i0 o0|]| | | | | |] l]; try exact H. exfalso. apply Hno. eauto. }
        destruct (pst k' (fPipe s)) as [p'|] eqn:E; cbn [mbind option_bind] in Hgen; [|done]. apply Some_inj_eq in Hgen as <-.
        exists sh. cbn [fShards fPipe]. repeat (split; [done|]). split; [|done].
        eapply (plain_step murmur n only reqsFirst cap k' (fPipe s) p'); [done|exact Hp| |done].
        intros i1 o1 l1 E1. apply Hno. eauto.
    - destruct (fShards s !! i0) as [sh0|] eqn:H0; cbn [mbind option_bind] in H; [|done].
      destruct (cstep t (fsC sh0)) as [c|] eqn:Ec; cbn [mbind option_bind] in H; [|done]. apply Some_inj_eq in H as <-.
      unfold eff. destruct (decide (i0 = i)) as [->|Hne].
      + rewrite Hi in H0. apply Some_inj_eq in H0 as <-. exists (setC c sh). cbn [fShards fPipe].
        rewrite list_lookup_insert by (by eapply lookup_lt_Some). split; [done|]. cbn [setC fsC]. rewrite Ec. by destruct o.
      + exists sh. cbn [fShards fPipe]. by rewrite list_lookup_insert_ne.
  Qed.
  (** Turns of the pipeline in an execution of the fine model *)
  Definition pturn (s : fine) (m : fmove) : option nat :=
    match m with
    | MLock _ _ => None
    | MProc k =>
      p ← sProcs (fPipe s) !! k;
      match pActs p with
      | ADo (EvIx i o) :: _ =>
        sh ← fShards s !! Z.to_nat i;
        match waiter o sh with
        | Some k' => if decide (k' = k) then if isIdle (sideOf o) (fsC sh) then Some k else None else None
        | None => None
        end
      | _ => Some k
      end
    end.
  Lemma pturn_turn s m : fPipe (fine_turn fdo m s) =
    match pturn s m with Some k => turn pst k (fPipe s) | None => fPipe s end.
  Proof.
    unfold fine_turn, turn. destruct m as [k|i t]; cbn [fineDo pturn].
    - destruct (sProcs (fPipe s) !! k) as [p|] eqn:Hp; cbn [mbind option_bind]; [|done].
      assert (Hgen : fPipe match (p' ← pst k (fPipe s); Some (mkFine p' (fShards s))) with Some s' => s' | None => s end =
        match pst k (fPipe s) with Some s' => s' | None => fPipe s end).
      { by destruct (pst k (fPipe s)); cbn [mbind option_bind]. }
      destruct (pActs p) as [|[[| i0 o|]| | | | | |] l]; try exact Hgen.
      destruct (fShards s !! Z.to_nat i0) as [sh|]; cbn [mbind option_bind]; [|done].
      destruct (waiter o sh) as [k'|].
      + destruct (decide (k' = k)) as [->|]; [|done]. destruct (isIdle _ _); [|done].
        by destruct (pst k (fPipe s)); cbn [mbind option_bind].
      + by destruct (isIdle _ _).
    - destruct (fShards s !! i) as [sh|]; cbn [mbind option_bind]; [|done].
      by destruct (cstep t (fsC sh)); cbn [mbind option_bind].
  Qed.

  (** ** A fair execution *)
  Context (Hcap : ∀ ch, (1 <= cap ch)%nat) (Hseg : (1 <= nseg)%nat).
  Context (Hx0 : zlen (addCache x0) <= DocCacheSize (initOptions x0)).
  Notation N := (length progs + nseg + 4 * Z.to_nat n)%nat.
  Context (s0 : fine) (Hs0 : reachf s0) (ms : nat → fmove) (Hfair : fair_moves N n looks ms).
  Notation ST := (fine_after fdo ms s0).
  Context (Hok : ∀ j, unharmed (ST j)).

  Lemma ST_reach j : reachf (ST j).
  Proof.
    induction j as [|j IH]; [done|]. cbn [fine_after]. unfold fine_turn. destruct (fdo (ms j) (ST j)) as [s'|] eqn:E; [|done].
    eapply rtc_r; [exact IH|by exists (ms j)].
  Qed.
  Definition dummy : fshard := mkFShard (shardStart x0 [] [] [] []) None None.
  Definition shAt (i j : nat) : fshard := default dummy (fShards (ST j) !! i).
  Definition cs (i j : nat) : cstate := fsC (shAt i j).
  Lemma shAt_ok i j : (i < Z.to_nat n)%nat → fShards (ST j) !! i = Some (shAt i j).
  Proof.
    intros Hi. unfold shAt. destruct (lookup_lt_is_Some_2 (fShards (ST j)) i) as [sh ->]; [|done].
    by rewrite (fine_shards murmur n only reqsFirst cap log2 sortDocs Hn nseg progs Hap x0 stale looks _ (ST_reach j)).
  Qed.
  Lemma busy_enabled i j : (i < Z.to_nat n)%nat → ¬ SpecLocks.finished (cs i j) → ∃ t, (t < 2 + length (looks i))%nat ∧ is_Some (cstep t (cs i j)).
  Proof.
    intros Hi Hnf. pose proof (shAt_ok i j Hi) as Hsh. destruct (threads_reach (ST j) Hx0 (ST_reach j) i _ Hsh) as [_ Hlen].
    destruct (opt_range (λ t, cstep t (cs i j)) (2 + length (looks i))) as [Hall|?]; [|done]. exfalso. apply Hnf.
    apply (fine_calm_shard murmur n only reqsFirst cap log2 sortDocs Hn nseg progs Hap x0 stale looks (ST j) i (shAt i j)); [apply ST_reach|done|..].
    - apply (Hok j). by eapply elem_of_list_lookup_2.
    - intros t. destruct (decide (t < 2 + length (looks i))%nat) as [Ht|Ht]; [by apply Hall|].
      unfold ModelLocks.cstep. by rewrite (proj2 (lookup_ge_None (cThreads (fsC (shAt i j))) t)) by lia.
  Qed.
  (** While [K] holds, the goroutines of the shard bring about [D]. *)
  Lemma drain i (K : nat → Prop) (D : cstate → Prop) : (i < Z.to_nat n)%nat → (∀ c, D c ∨ ¬ D c) → (∀ c, SpecLocks.finished c → (length (cThreads c) >= 2)%nat → D c) →
    (∀ j, K j → ¬ D (cs i j) → K (S j) ∧ cs i (S j) = eff i (ms j) (cs i j)) →
    ∀ j, K j → ∃ j', (j <= j')%nat ∧ K j' ∧ D (cs i j').
  Proof.
    intros Hi Ddec HD HK.
    assert (Hcapi : ∀ j, capInv C (shIx (cShard (cs i j))) ∧ length (cThreads (cs i j)) = (2 + length (looks i))%nat).
    { intros j. apply (threads_reach (ST j) Hx0 (ST_reach j) i). by apply shAt_ok. }
    assert (Hin : ∀ d j t, K j → ¬ D (cs i j) → is_Some (cstep t (cs i j)) → ms (j + d)%nat = MLock i t →
      ∃ j', (j <= j')%nat ∧ K j' ∧ (D (cs i j') ∨ (measure C (cs i j') < measure C (cs i j))%nat)).
    { induction d as [|d IH]; intros j t Hk Hd Ht Hm; destruct (HK j Hk Hd) as [HKS HS].
      - exists (S j). split; [lia|]. split; [done|]. right. rewrite Nat.add_0_r in Hm. rewrite HS, Hm. cbn [eff].
        rewrite decide_True by done. destruct Ht as [c' Hc']. rewrite Hc'. by destruct (measure_step log2 sortDocs C t _ _ Hc' (proj1 (Hcapi j))).
      - destruct (Ddec (cs i (S j))) as [HDS|HDS]; [exists (S j); auto|].
        assert (HE : cs i (S j) = cs i j ∨ (measure C (cs i (S j)) < measure C (cs i j))%nat).
        { rewrite HS. destruct (ms j) as [|i' t']; cbn [eff]; [by left|]. case_decide; [|by left].
          destruct (cstep t' (cs i j)) as [c'|] eqn:Ec; [|by left]. right. by destruct (measure_step log2 sortDocs C t' _ _ Ec (proj1 (Hcapi j))). }
        destruct HE as [HE|HE].
        + destruct (IH (S j) t) as (j' & Hj & HKj & Hr); [done|done|by rewrite HE|rewrite <- Hm; f_equal; lia|].
          exists j'. split; [lia|]. split; [done|]. by rewrite HE in Hr.
        + exists (S j). split; [lia|]. auto. }
    intros j. remember (measure C (cs i j)) as w eqn:Ew. revert j Ew. induction (lt_wf w) as [w _ IH]. intros j -> Hk.
    destruct (Ddec (cs i j)) as [Hd|Hd]; [by exists j|].
    destruct (busy_enabled i j Hi) as (t & Ht & Hen).
    { intros Hf. apply Hd, HD; [done|]. rewrite (proj2 (Hcapi j)). lia. }
    destruct Hfair as [_ Hf2]. destruct (Hf2 i t Hi Ht j) as (j1 & Hj1 & Hm).
    destruct (Hin (j1 - j)%nat j t Hk Hd Hen) as (j' & Hj & HKj & [HDj|Hlt]).
    { rewrite <- Hm. f_equal. lia. }
    - by exists j'.
    - destruct (IH _ Hlt j' eq_refl HKj) as (j'' & ? & ? & ?). exists j''. split; [lia|done].
  Qed.

  (** The shard of a process that is calling *)
  Lemma calling_shard j k i o : (i < Z.to_nat n)%nat → calling (fPipe (ST j)) k (Z.of_nat i) o →
    (waiter o (shAt i j) = None ∧ isIdle (sideOf o) (cs i j) = true) ∨ waiter o (shAt i j) = Some k.
  Proof.
    intros Hi Hc. destruct (fineInv_reach murmur n only reqsFirst cap log2 sortDocs Hn nseg progs Hap x0 stale looks _ (ST_reach j)) as (Hre & _ & Hinv).
    destruct (Hinv i (shAt i j) (shAt_ok i j Hi)) as (_ & [((E1 & E2 & Q0 & Q1) & _)|(k' & o' & E1 & E2 & _ & Hc' & _)]).
    - left. split; [by destruct o|]. apply isIdle_true. by destruct o.
    - right. pose proof (one_caller murmur n only reqsFirst cap Hn nseg progs _ _ _ _ _ _ Hap Hre Hc Hc') as <-.
      destruct (calling_fun _ _ _ _ _ _ Hc Hc') as [_ <-]. by destruct o.
  Qed.
  Definition waiting (k i : nat) (o : op) (j : nat) : Prop :=
    waiter o (shAt i j) = Some k ∧ calling (fPipe (ST j)) k (Z.of_nat i) o.
  Lemma waiting_step k i o j : (i < Z.to_nat n)%nat → waiting k i o j → ms j ≠ MProc k ∨ isIdle (sideOf o) (cs i j) = false →
    waiting k i o (S j) ∧ cs i (S j) = eff i (ms j) (cs i j).
  Proof.
    intros Hi [Hw Hc] Hm. destruct (wait_step (ST j) (ms j) i k o (shAt i j) (ST_reach j) (shAt_ok i j Hi) Hw Hc Hm) as (sh' & H1 & H2 & H3 & H4).
    change (fine_turn fdo (ms j) (ST j)) with (ST (S j)) in *. assert (sh' = shAt i (S j)) as -> by (unfold shAt; by rewrite H1). done.
  Qed.
  Definition ks (j : nat) : nat := default (length (sProcs (fPipe (ST j)))) (pturn (ST j) (ms j)).
  Lemma ST_pipe j : fPipe (ST j) = after pst ks (fPipe s0) j.
  Proof.
    induction j as [|j IH]; [done|]. cbn [fine_after after]. rewrite pturn_turn, <- IH. unfold ks.
    destruct (pturn (ST j) (ms j)) as [k|]; [done|]. cbn [default]. unfold turn, pstep.
    by rewrite (proj2 (lookup_ge_None _ _)) by done.
  Qed.
  Lemma pturn_calling j k i o : (i < Z.to_nat n)%nat → waiting k i o j → isIdle (sideOf o) (cs i j) = true → ms j = MProc k → ks j = k.
  Proof.
    intros Hi [Hw (p & l & Hp & Ha)] Hid Hm. unfold ks. rewrite Hm. cbn [pturn]. rewrite Hp. cbn [mbind option_bind]. rewrite Ha, Nat2Z.id, (shAt_ok i j Hi).
    cbn [mbind option_bind]. rewrite Hw. rewrite decide_True by done. unfold cs in Hid. by rewrite Hid.
  Qed.
  Lemma eff_idle i u m c : isIdle u c = true → isIdle u (eff i m c) = true.
  Proof.
    intros H. destruct m as [|i' t]; [done|]. cbn [eff]. case_decide; [|done]. destruct (cstep t c) as [c'|] eqn:E; [|done].
    apply isIdle_true in H. apply isIdle_true. by destruct (quiet_step _ _ _ _ _ _ E H).
  Qed.
  (** The next turn of a process whose call has returned *)
  Lemma return_turn d : ∀ j k i o, (i < Z.to_nat n)%nat → waiting k i o j → isIdle (sideOf o) (cs i j) = true → ms (j + d)%nat = MProc k →
    ∃ j', (j <= j')%nat ∧ ks j' = k.
  Proof.
    induction d as [|d IH]; intros j k i o Hi Hw Hid Hm.
    - exists j. split; [done|]. rewrite Nat.add_0_r in Hm. by eapply pturn_calling.
    - assert (Hdec : ms j = MProc k ∨ ms j ≠ MProc k).
      { destruct (ms j) as [k'|]; [|by right]. destruct (decide (k' = k)) as [->|]; [by left|right; congruence]. }
      destruct Hdec as [E|E]; [exists j; split; [done|]; by eapply pturn_calling|].
      destruct (waiting_step k i o j Hi Hw (or_introl E)) as [Hw' Hc'].
      destruct (IH (S j) k i o Hi Hw') as (j' & ? & ?); [rewrite Hc'; by apply eff_idle|rewrite <- Hm; f_equal; lia|].
      exists j'. split; [lia|done].
  Qed.
  Lemma waiting_turn j k i o : (k < N)%nat → (i < Z.to_nat n)%nat → waiting k i o j → ∃ j', (j <= j')%nat ∧ ks j' = k.
  Proof.
    intros Hk Hi Hw.
    destruct (drain i (waiting k i o) (λ c, isIdle (sideOf o) c = true) Hi) with (j := j) as (j1 & Hj1 & Hw1 & Hid); [..|done|].
    - intros c. destruct (isIdle (sideOf o) c); [by left|by right].
    - intros c Hf Hlen. apply isIdle_true. destruct (lookup_lt_is_Some_2 (cThreads c) (sideOf o)) as [th Hth]; [destruct o; cbn; lia|].
      rewrite Hth. destruct (Hf th) as [E1 E2]; [by eapply elem_of_list_lookup_2|]. destruct th. cbn in *. by subst.
    - intros j2 Hw2 Hid2. apply waiting_step; [done|done|]. right. by apply not_true_is_false.
    - destruct Hfair as [Hf1 _]. destruct (Hf1 k Hk j1) as (j2 & Hj2 & Hm).
      destruct (return_turn (j2 - j1) j1 k i o Hi Hw1 Hid) as (j3 & ? & ?); [rewrite <- Hm; f_equal; lia|]. exists j3. split; [lia|done].
  Qed.
  Lemma ks_fair : fair N ks.
  Proof.
    intros k Hk j. destruct Hfair as [Hf1 _]. destruct (Hf1 k Hk j) as (j1 & Hj1 & Hm).
    assert (Hlen : length (sProcs (fPipe (ST j1))) = N).
    { assert (Hr : reachp nseg progs (fPipe (ST j1))) by (eapply fine_pipe_any, ST_reach).
      assert (Hl : ProofLive.linv n reqsFirst N (fPipe (ST j1))).
      { unfold pipe_reach in Hr. apply (rtc_ind_r (ProofLive.linv n reqsFirst N) (pipeInit n nseg progs)) in Hr; [done|by apply ProofLive.linv_init|].
        intros s1 s2 _ [k1 Hk1] IH. by eapply ProofLive.linv_step. }
      by destruct Hl. }
    destruct (lookup_lt_is_Some_2 (sProcs (fPipe (ST j1))) k) as [p Hp]; [lia|].
    destruct (callHead_dec (pActs p)) as [(i & o & l & Ea)|Hno].
    - assert (Hc : calling (fPipe (ST j1)) k i o) by (by exists p, l).
      pose proof (calling_range murmur n only reqsFirst cap Hn _ _ _ _ _ _ (fine_pipe_any _ _ _ _ _ _ _ _ _ _ _ _ _ (ST_reach j1)) Hc) as Hi.
      assert (Hin : (Z.to_nat i < Z.to_nat n)%nat) by lia. replace i with (Z.of_nat (Z.to_nat i)) in Hc by lia.
      destruct (calling_shard j1 k _ o Hin Hc) as [[Hw Hid]|Hw].
      + (* the call starts *)
        assert (Hw' : waiting k (Z.to_nat i) o (S j1)).
        { pose proof (shAt_ok (Z.to_nat i) j1 Hin) as Hsh.
          assert (E : ST (S j1) = mkFine (fPipe (ST j1)) (<[Z.to_nat i := setWaiter o (Some k) (setC (startCall o (cs (Z.to_nat i) j1)) (shAt (Z.to_nat i) j1))]> (fShards (ST j1)))).
          { cbn [fine_after]. unfold fine_turn. rewrite Hm. cbn [fineDo]. rewrite Hp. cbn [mbind option_bind]. rewrite Ea, Hsh. cbn [mbind option_bind].
            rewrite Hw. unfold cs in *. by rewrite Hid. }
          split; [|by rewrite E]. unfold shAt at 1. rewrite E. cbn [fShards]. rewrite list_lookup_insert by (by eapply lookup_lt_Some).
          cbn [default]. by destruct o. }
        destruct (waiting_turn _ _ _ _ Hk Hin Hw') as (j2 & ? & ?). exists j2. split; [lia|done].
      + destruct (waiting_turn j1 k (Z.to_nat i) o Hk Hin) as (j2 & ? & ?); [done|]. exists j2. split; [lia|done].
    - exists j1. split; [done|]. unfold ks. rewrite Hm. cbn [pturn]. rewrite Hp. cbn [mbind option_bind].
      destruct (pActs p) as [|[[| i0 o0|]| | | | | |] l]; try done. exfalso. apply Hno. eauto.
  Qed.

  (** The rest of the searches *)
  Lemma still_step j : quiescent (fPipe (ST j)) →
    fPipe (ST (S j)) = fPipe (ST j) ∧ ∀ i, (i < Z.to_nat n)%nat → cs i (S j) = eff i (ms j) (cs i j).
  Proof.
    intros Hq. pose proof (λ k, ProofLive.rest_still murmur n only reqsFirst cap k _ Hq) as Hst.
    split.
    - cbn [fine_after]. rewrite pturn_turn. destruct (pturn (ST j) (ms j)) as [k|]; [|done]. unfold turn. by rewrite Hst.
    - intros i Hi. pose proof (shAt_ok i j Hi) as Hsh. pose proof (shAt_ok i (S j) Hi) as Hsh'.
      cbn [fine_after] in Hsh'. unfold fine_turn in Hsh'. destruct (ms j) as [k|i0 t] eqn:Em.
      + cbn [eff]. assert (E : fdo (MProc k) (ST j) = None).
        { cbn [fineDo]. destruct (sProcs (fPipe (ST j)) !! k) as [p|] eqn:Hp; cbn [mbind option_bind]; [|done].
          destruct Hq as [_ Hq]. destruct (Forall_lookup_1 _ _ _ _ Hq Hp) as [-> _]. by rewrite Hst. }
        rewrite E, Hsh in Hsh'. apply Some_inj_eq in Hsh'. unfold cs. by rewrite <- Hsh'.
      + cbn [eff]. cbn [fineDo] in Hsh'. case_decide as Ei.
        * subst i0. rewrite Hsh in Hsh'. cbn [mbind option_bind] in Hsh'. unfold cs. destruct (cstep t (fsC (shAt i j))) as [c|] eqn:Ec; cbn [mbind option_bind] in Hsh'.
          -- cbn [fShards] in Hsh'. rewrite list_lookup_insert in Hsh' by (by eapply lookup_lt_Some). apply Some_inj_eq in Hsh'. by rewrite <- Hsh'.
          -- rewrite Hsh in Hsh'. apply Some_inj_eq in Hsh'. by rewrite <- Hsh'.
        * assert (E : fShards (ST j) !! i = Some (shAt i (S j))).
          { rewrite <- Hsh'. destruct (fShards (ST j) !! i0) as [sh|]; cbn [mbind option_bind]; [|done].
            destruct (cstep t (fsC sh)); cbn [mbind option_bind]; [|done]. cbn [fShards]. by rewrite list_lookup_insert_ne. }
          rewrite Hsh in E. apply Some_inj_eq in E. unfold cs. by rewrite <- E.
  Qed.
  Lemma still_later j d : quiescent (fPipe (ST j)) → quiescent (fPipe (ST (j + d))).
  Proof.
    intros Hq. induction d as [|d IH]; [by rewrite Nat.add_0_r|]. rewrite Nat.add_succ_r. by rewrite (proj1 (still_step _ IH)).
  Qed.
  Lemma finished_still i m c : SpecLocks.finished c → eff i m c = c.
  Proof.
    intros Hf. destruct m as [|i' t]; [done|]. cbn [eff]. case_decide; [|done]. unfold ModelLocks.cstep.
    destruct (cThreads c !! t) as [th|] eqn:E; cbn [mbind option_bind]; [|done].
    destruct (Hf th) as [E1 E2]; [by eapply elem_of_list_lookup_2|]. by rewrite E1, E2.
  Qed.
  Lemma finished_later i j d : (i < Z.to_nat n)%nat → quiescent (fPipe (ST j)) → SpecLocks.finished (cs i j) → SpecLocks.finished (cs i (j + d)).
  Proof.
    intros Hi Hq Hf. induction d as [|d IH]; [by rewrite Nat.add_0_r|]. rewrite Nat.add_succ_r.
    rewrite (proj2 (still_step _ (still_later j d Hq)) i Hi). by rewrite finished_still.
  Qed.
  Lemma all_finished j m : quiescent (fPipe (ST j)) → (m <= Z.to_nat n)%nat →
    ∃ j', (j <= j')%nat ∧ quiescent (fPipe (ST j')) ∧ ∀ i, (i < m)%nat → SpecLocks.finished (cs i j').
  Proof.
    intros Hq. induction m as [|m IH]; intros Hm; [exists j; split; [done|split; [done|lia]]|].
    destruct IH as (j1 & Hj1 & Hq1 & Hf1); [lia|].
    destruct (drain m (λ j, quiescent (fPipe (ST j))) SpecLocks.finished) with (j := j1) as (j2 & Hj2 & Hq2 & Hf2); [lia|apply finished_dec|done| |done|].
    - intros j2 Hq2 _. destruct (still_step j2 Hq2) as [E1 E2]. split; [by rewrite E1|]. apply E2. lia.
    - exists j2. split; [lia|]. split; [done|]. intros i Hi. destruct (decide (i = m)) as [->|]; [done|].
      replace j2 with (j1 + (j2 - j1))%nat by lia. apply finished_later; [lia|done|]. apply Hf1. lia.
  Qed.

  Lemma fine_live : ∃ j, quiescent (fPipe (ST j)) ∧ ∀ sh, sh ∈ fShards (ST j) → at_ease sh ∧ SpecLocks.finished (fsC sh).
  Proof.
    destruct (ProofLive.rest_lem murmur n only reqsFirst cap Hn Hcap nseg progs (fPipe s0) ks Hseg) as [j Hq]; [by eapply fine_pipe_any|apply ks_fair|].
    rewrite <- ST_pipe in Hq. destruct (all_finished j (Z.to_nat n) Hq) as (j' & _ & Hq' & Hf); [done|].
    exists j'. split; [done|]. intros sh [i Hi]%elem_of_list_lookup.
    assert (Hlt : (i < Z.to_nat n)%nat).
    { apply lookup_lt_Some in Hi. by rewrite (fine_shards murmur n only reqsFirst cap log2 sortDocs Hn nseg progs Hap x0 stale looks _ (ST_reach j')) in Hi. }
    split; [by eapply (fine_quiescent murmur n only reqsFirst cap log2 sortDocs Hn nseg progs Hap x0 stale looks _ i sh (ST_reach j'))|].
    specialize (Hf i Hlt). unfold cs in Hf. rewrite (shAt_ok i j' Hlt) in Hi. apply Some_inj_eq in Hi. by rewrite <- Hi.
  Qed.
End Live.

(** One client, phases kept apart: only the searches could panic. *)
Lemma phases_unharmed murmur n only reqsFirst cap log2 sortDocs nseg phases x0 stale looks io s :
  1 <= n < 2^32 → Forall good_phase phases → Forall apart phases → valid_sort sortDocs → Init io = Some x0 →
  fine_reach murmur n only reqsFirst cap log2 sortDocs nseg [program phases] x0 stale looks s → ¬ search_crashed s → unharmed s.
Proof.
  intros Hn HG HA Hs HI Hr Hsc sh Hin (th & Hth & Hc). apply elem_of_list_lookup in Hin as [i Hi]. apply elem_of_list_lookup in Hth as [t Ht].
  destruct (decide (t < 2)%nat) as [Hlt|Hge].
  - by destruct (fine_sound murmur n only reqsFirst cap log2 sortDocs Hn nseg phases HG HA x0 stale looks io s Hs HI Hr i sh t th Hi Hlt Ht).
  - apply Hsc. exists i, sh, t, th. repeat (split; [done|]). split; [lia|done].
Qed.
Lemma Init_cache io x0 : Init io = Some x0 → zlen (addCache x0) <= DocCacheSize (initOptions x0).
Proof.
  unfold Init. destruct (Z.ltb_spec (DocCacheSize (optsInit io)) 0); [done|]. intros [= <-]. done.
Qed.
(** At rest nothing moves any more. *)
Lemma fine_rest murmur n only reqsFirst cap log2 sortDocs s m : quiescent (fPipe s) → (∀ sh, sh ∈ fShards s → SpecLocks.finished (fsC sh)) →
  fineDo murmur n only reqsFirst cap log2 sortDocs m s = None.
Proof.
  intros Hq Hf. destruct m as [k|i t]; cbn [fineDo].
  - destruct (sProcs (fPipe s) !! k) as [p|] eqn:Hp; cbn [mbind option_bind]; [|done].
    pose proof (ProofLive.rest_still murmur n only reqsFirst cap k _ Hq) as ->. destruct Hq as [_ Hq].
    destruct (Forall_lookup_1 _ _ _ _ Hq Hp) as [-> _]. done.
  - destruct (fShards s !! i) as [sh|] eqn:Hi; cbn [mbind option_bind]; [|done].
    assert (ModelLocks.cstep log2 sortDocs t (fsC sh) = None) as ->; [|done]. unfold ModelLocks.cstep.
    destruct (cThreads (fsC sh) !! t) as [th|] eqn:E; cbn [mbind option_bind]; [|done].
    destruct (Hf sh (elem_of_list_lookup_2 _ _ _ Hi) th) as [E1 E2]; [by eapply elem_of_list_lookup_2|]. by rewrite E1, E2.
Qed.
Lemma after_rest step ms s j d : (∀ m, step m (fine_after step ms s j) = None) → fine_after step ms s (j + d) = fine_after step ms s j.
Proof.
  intros H. induction d as [|d IH]; [by rewrite Nat.add_0_r|]. rewrite Nat.add_succ_r. cbn [fine_after]. rewrite IH. unfold fine_turn. by rewrite H.
Qed.
