(** Closing, recovering and changing the number of store shards. *)
From Verif Require Import ModelStore SpecStore SpecIndexer ProofSegment ProofTopK ProofEngine ProofStore ProofStoreRun ProofStoreThms ProofStoreSched.

Section End_.
  Variable accepts : string → string → bool.
  Variable encode : DocData → option string.
  Variable murmur : string → Z.
  Variable n : Z.
  Variable dbs : Z → kv.
  Notation step := (storeStep accepts encode murmur n).
  Notation written := (written accepts encode).
  Notation writable := (writable accepts encode).
  Notation content := (content murmur n dbs).

  (** Flush returns while the deletion has not been carried out *)
  Lemma close_loses_lem cs id d v : 1 <= n → id ≠ "0" → writable id d v →
    ∃ s, store_reach accepts encode murmur n [cs ++ [SIndex id d; SFlush; SRemove id; SFlush]] s ∧
      clients_done s ∧ Forall (eq WIdle) (ssWork s) ∧ ssDels s = [id] ∧ content id (ssLog s) = Some v.
  Proof.
    intros Hn H0 Hv.
    destruct (go_all accepts encode murmur n cs 0 _ [] [] Hn (idle_start n) eq_refl) as (r' & d' & l' & H1 & Hc & _).
    apply (go_app accepts encode murmur n cs [SIndex id d; SFlush; SRemove id; SFlush]) in H1.
    destruct (go_drain accepts encode murmur n dbs [mkSC [SIndex id d; SFlush; SRemove id; SFlush] [] r'] (replicate (Z.to_nat n) WIdle) d' l') as (l2 & H3 & Hc2 & _).
    specialize (Hc2 Hc). pose proof (idle_at murmur n _ id Hn (idle_start n)) as Hw.
    set (l3 := l2 ++ [EvReq; EvSent id d; EvWrite id (written id d); EvStored]).
    assert (Hc3 : numReqs l3 = numStored l3) by (by apply counts_app).
    destruct (go_flush accepts encode murmur n [SRemove id; SFlush] 0 (replicate (Z.to_nat n) WIdle) [] l3 Hc3) as [r1 F1].
    destruct (go_flush accepts encode murmur n [] 0 (replicate (Z.to_nat n) WIdle) ([] ++ [id]) (l3 ++ [EvSpawn id])) as [r2 F2].
    { by apply counts_app. }
    eexists. split.
    - unfold store_reach. etrans; [exact H1|]. etrans; [exact H3|]. etrans; [by apply go_index|]. etrans; [exact F1|].
      etrans; [by apply go_remove|]. exact F2.
    - split; [by constructor|]. split; [apply idle_start|]. split; [done|]. cbn [ssLog]. rewrite content_snoc. unfold l3.
      rewrite (proj2 (written_writable accepts encode _ _ _) Hv).
      assert (∀ x y z t : sevent, l2 ++ [x; y; z; t] = ((l2 ++ [x; y]) ++ [z]) ++ [t]) as -> by (intros; by rewrite <-!app_assoc).
      rewrite !content_snoc. by rewrite decide_True.
  Qed.

  (** * Recovery *)
  Lemma dbAfter_placed log : placed murmur n dbs → placed murmur n (dbAfter murmur n dbs log).
  Proof.
    intros Hp j id Hj Hs. destruct (decide (storeShard murmur n id = j)) as [|Hne]; [done|].
    rewrite (other_shard murmur n dbs id log j Hne) in Hs. by apply Hp.
  Qed.

  Lemma no_zero_write progs s v : store_reach accepts encode murmur n progs s → EvWrite "0" v ∉ ssLog s ∧ EvDel "0" ∉ ssLog s.
  Proof.
    intros H. assert (G : (∀ d, EvSent "0" d ∉ ssLog s) ∧ (∀ v, EvWrite "0" v ∉ ssLog s) ∧ EvDel "0" ∉ ssLog s ∧ "0" ∉ ssDels s ∧
      Forall (λ w, ∀ d, w ≠ WHold "0" d) (ssWork s) ∧ Forall (λ c, Forall (λ a, a ≠ SSpawn "0" ∧ ∀ d, a ≠ SSend "0" d) (scActs c)) (ssClients s)).
    { clear v. revert s H. apply (rtc_ind_r (R := step)).
      - unfold storeStart. cbn [ssLog ssDels ssWork ssClients]. repeat split; try (intros; by apply not_elem_of_nil); try (by apply not_elem_of_nil).
        + apply Forall_replicate. done.
        + apply Forall_fmap, Forall_true. intros; by constructor.
      - intros s s' _ Hst (G1 & G2 & G3 & G4 & G5 & G6). destruct s as [cl w dl l]. cbn [ssLog ssDels ssWork ssClients] in *.
        assert (E : ∀ e, (∀ d, e ≠ EvSent "0" d) → (∀ v, e ≠ EvWrite "0" v) → e ≠ EvDel "0" →
          (∀ d, EvSent "0" d ∉ l ++ [e]) ∧ (∀ v, EvWrite "0" v ∉ l ++ [e]) ∧ EvDel "0" ∉ l ++ [e]).
        { intros e E1 E2 E3. split; [intros d|split; [intros v|]]; rewrite elem_of_app, elem_of_list_singleton; intros [Hin|Heq].
          - by apply (G1 d).
          - by apply (E1 d).
          - by apply (G2 v).
          - by apply (E2 v).
          - done.
          - done. }
        destruct Hst as [[k|k|j|k] Hst]; cbn [smoveStep] in Hst.
        + unfold clientStep in Hst. cbn [ssClients ssWork ssDels ssLog] in Hst. destruct (cl !! k) as [[calls acts r]|] eqn:Ek; [|done].
          cbn in Hst. assert (Ha : Forall (λ a, a ≠ SSpawn "0" ∧ ∀ d, a ≠ SSend "0" d) acts).
          { rewrite Forall_forall in G6. apply (G6 (mkSC calls acts r)). by eapply elem_of_list_lookup_2. }
          destruct acts as [|a acts].
          * destruct calls as [|c calls]; [done|]. injection Hst as <-. cbn [ssLog ssDels ssWork ssClients]. repeat (split; [done|]).
            apply Forall_insert; [done|]. cbn. destruct c as [id d|id|]; cbn; try (destruct (seqb id "0") eqn:E0; [by constructor|apply seqb_neq in E0]); repeat constructor; naive_solver.
          * apply Forall_cons in Ha as [[Ha1 Ha2] Ha]. destruct a as [|id d|id| | |]; try (injection Hst as <-; cbn [ssLog ssDels ssWork ssClients]).
            -- destruct (E EvReq) as (?&?&?); try done. repeat (split; [done|]). by apply Forall_insert.
            -- destruct (w !! _) as [[]|] eqn:Ew; try done. injection Hst as <-. cbn [ssLog ssDels ssWork ssClients].
               destruct (E (EvSent id d)) as (?&?&?); [intros d' [= -> ->]; by apply (Ha2 d')|done|done|].
               repeat (split; [done|]). split; apply Forall_insert; try done. intros d' [= -> ->]. by apply (Ha2 d').
            -- destruct (E (EvSpawn id)) as (?&?&?); try done. repeat (split; [done|]). split; [|split; [done|by apply Forall_insert]].
               rewrite elem_of_app, elem_of_list_singleton. intros [?|<-]; done.
            -- repeat (split; [done|]). by apply Forall_insert.
            -- repeat (split; [done|]). apply Forall_insert; [done|]. cbn. destruct (_ =? _); [done|]. by repeat constructor.
            -- repeat (split; [done|]). apply Forall_insert; [done|]. cbn. destruct (_ =? _); [done|]. by repeat constructor.
        + unfold altRead in Hst. cbn [ssClients ssWork ssDels ssLog] in Hst. destruct (cl !! k) as [[calls acts r]|] eqn:Ek; [|done].
          cbn in Hst. assert (Ha : Forall (λ a, a ≠ SSpawn "0" ∧ ∀ d, a ≠ SSend "0" d) acts).
          { rewrite Forall_forall in G6. apply (G6 (mkSC calls acts r)). by eapply elem_of_list_lookup_2. }
          destruct acts as [|[] [|[] acts]]; try done. injection Hst as <-. cbn [ssLog ssDels ssWork ssClients].
          repeat (split; [done|]). apply Forall_insert; [done|]. cbn. apply Forall_cons in Ha as [_ [_ Ha]%Forall_cons]. by constructor.
        + unfold workerStep in Hst. cbn [ssClients ssWork ssDels ssLog] in Hst. destruct (w !! j) as [x|] eqn:Ew; [|done].
          assert (Hx : ∀ d, x ≠ WHold "0" d). { rewrite Forall_forall in G5. apply G5. by eapply elem_of_list_lookup_2. }
          cbn in Hst. destruct x as [|id d|]; try done; injection Hst as <-; cbn [ssLog ssDels ssWork ssClients].
          * destruct (E (EvWrite id (written id d))) as (?&?&?); [done|intros ? [= -> _]; by apply (Hx d)|done|]. repeat (split; [done|]). split; [by apply Forall_insert|done].
          * destruct (E EvStored) as (?&?&?); try done. repeat (split; [done|]). split; [by apply Forall_insert|done].
        + unfold delStep in Hst. cbn [ssClients ssWork ssDels ssLog] in Hst. destruct (dl !! k) as [x|] eqn:Ew; [|done].
          cbn in Hst. injection Hst as <-. cbn [ssLog ssDels ssWork ssClients]. pose proof (elem_of_list_lookup_2 _ _ _ Ew).
          destruct (E (EvDel x)) as (?&?&?); [done|done|intros [= ->]; by apply G4|]. repeat (split; [done|]). split; [|done].
          intros Hin. apply G4. pose proof (delete_Permutation _ _ _ Ew) as ->. by right. }
    split; apply G.
  Qed.
  Lemma content_untouched id log : (∀ v, EvWrite id v ∉ log) → EvDel id ∉ log → content id log = dbs (storeShard murmur n id) !! id.
  Proof.
    induction log as [|e log IH] using rev_ind; intros H1 H2; [done|]. rewrite content_snoc.
    assert (content id log = dbs (storeShard murmur n id) !! id) as <-.
    { apply IH; [intros v Hv; apply (H1 v)|intros Hv; apply H2]; apply elem_of_app; by left. }
    destruct e as [| | |id' [v|]| |id']; try done; (destruct (decide (id' = id)) as [->|]; [exfalso|done]); [eapply H1|apply H2]; apply elem_of_app; right; by apply elem_of_list_singleton.
  Qed.

  (** One client, no removals, everything can be stored: recovery gives the last data of
      every id, or what was there before. *)
  Lemma recover_lem iter decode cs s rs id d : 1 <= n < 2^32 →
    valid_iter iter → round_trip encode decode → placed murmur n dbs →
    (∀ id, SRemove id ∉ cs) → (∀ id d, SIndex id d ∈ cs → ∃ v, writable id d v) →
    store_reach accepts encode murmur n [cs] s → store_quiet s →
    restart iter decode n (dbAfter murmur n dbs (ssLog s)) rs →
    NoDup rs.*1 ∧
    ((id, d) ∈ rs ↔
      (id ≠ "0" ∧ last_data cs id d) ∨
      ((id = "0" ∨ ∀ d', SIndex id d' ∉ cs) ∧ ∃ v, dbs (storeShard murmur n id) !! id = Some v ∧ decode v = (d, false))).
  Proof.
    intros Hn Hit Hrt Hp Hrem Henc Hr Hq Hres.
    pose proof (dbAfter_placed (ssLog s) Hp) as Hp'. split; [by eapply restart_nodup|].
    rewrite (restart_in iter Hit decode _ _ _ id d Hres).
    assert (Hc : (∃ j v, 0 <= j < n ∧ dbAfter murmur n dbs (ssLog s) j !! id = Some v ∧ decode v = (d, false)) ↔
      ∃ v, content id (ssLog s) = Some v ∧ decode v = (d, false)).
    { split.
      - intros (j & v & Hj & Hv & Hd). exists v. split; [|done]. unfold ProofStoreRun.content. by rewrite (Hp' j id Hj (ex_intro _ v Hv)).
      - intros (v & Hv & Hd). exists (storeShard murmur n id), v. split; [apply shard_range; lia|done]. }
    rewrite Hc. clear Hc Hres.
    destruct (decide (id = "0")) as [->|H0].
    { destruct (no_zero_write _ _ None Hr) as [_ Z2].
      rewrite content_untouched; [|intros v; by destruct (no_zero_write _ _ v Hr)|done]. naive_solver. }
    destruct (outcomes_lem accepts encode murmur n dbs cs s id H0 Hr Hq) as [(v & Hl & ->)|[[Hin _]|(_ & Hnw & ->)]]; [|by apply Hrem in Hin|].
    - destruct Hl as (cs1 & d1 & cs2 & -> & [Hw Hac] & Hlast).
      assert (Hno : ∀ d', SIndex id d' ∉ cs2).
      { intros d' Hin. destruct (Henc id d') as [v' Hv']; [rewrite elem_of_app, elem_of_cons; tauto|]. by eapply Hlast. }
      split.
      + intros (v' & [= <-] & Hd). left. split; [done|]. rewrite (Hrt _ _ Hw) in Hd. injection Hd as ->. by exists cs1, cs2.
      + intros [[_ (c1 & c2 & E & Hno2)]|[[?|Hx] _]]; [|done|].
        2:{ exfalso. apply (Hx d1). rewrite elem_of_app, elem_of_cons. tauto. }
        assert (d = d1) as ->.
        { clear -E Hno Hno2. revert cs1 E. induction c1 as [|c c1 IH]; intros [|c' cs1] E; cbn in E.
          - by injection E.
          - injection E as _ E. exfalso. apply (Hno2 d1). rewrite <-E, elem_of_app, elem_of_cons. tauto.
          - injection E as _ E. exfalso. apply (Hno d). rewrite E, elem_of_app, elem_of_cons. tauto.
          - injection E as _ E. by apply (IH cs1). }
        exists v. split; [done|]. by apply Hrt.
    - assert (Hno : ∀ d', SIndex id d' ∉ cs).
      { intros d' Hin. destruct (Henc id d' Hin) as [v' Hv']. by eapply Hnw. }
      split; [intros H; right; split; [by right|done]|].
      intros [[_ (c1 & c2 & -> & _)]|[_ H]]; [|done]. exfalso. apply (Hno d). rewrite elem_of_app, elem_of_cons. tauto.
  Qed.

  (** * A store written with another number of shards *)
  Lemma stale_copy_lem iter decode progs s rs id j v d : 1 <= n < 2^32 →
    valid_iter iter → store_reach accepts encode murmur n progs s →
    restart iter decode n (dbAfter murmur n dbs (ssLog s)) rs →
    0 <= j < n → storeShard murmur n id ≠ j → dbs j !! id = Some v → decode v = (d, false) →
    (id, d) ∈ rs.
  Proof.
    intros Hn Hit _ Hres Hj Hne Hv Hd. apply (restart_in iter Hit decode _ _ _ id d Hres). exists j, v.
    by rewrite other_shard.
  Qed.
  Lemma lost_shard_lem iter decode rs id d : valid_iter iter →
    restart iter decode n dbs rs → (∀ j, 0 <= j < n → dbs j !! id = None) → (id, d) ∉ rs.
  Proof.
    intros Hit Hres Hno Hin. apply (restart_in iter Hit decode _ _ _ id d Hres) in Hin as (j & v & Hj & Hv & _). by rewrite Hno in Hv.
  Qed.
  Lemma two_copies_lem iter decode cs s rs id j v d d' : 1 <= n < 2^32 →
    valid_iter iter → round_trip encode decode → store_reach accepts encode murmur n [cs] s → store_quiet s →
    restart iter decode n (dbAfter murmur n dbs (ssLog s)) rs →
    0 <= j < n → storeShard murmur n id ≠ j → dbs j !! id = Some v → decode v = (d, false) →
    id ≠ "0" → SRemove id ∉ cs → last_data cs id d' → (∀ d', SIndex id d' ∈ cs → ∃ v, writable id d' v) →
    ∃ p1 p2, p1 ≠ p2 ∧ rs !! p1 = Some (id, d) ∧ rs !! p2 = Some (id, d').
  Proof.
    intros Hn Hit Hrt Hr Hq Hres Hj Hne Hv Hd H0 Hrem (c1 & c2 & -> & Hlast) Henc.
    destruct (Henc d') as [v' [Hv' Ha']]; [rewrite elem_of_app, elem_of_cons; tauto|].
    assert (Hc : content id (ssLog s) = Some v').
    { destruct (outcomes_lem accepts encode murmur n dbs _ s id H0 Hr Hq) as [(x & Hl & ->)|[[Hin _]|(_ & Hnw & _)]]; [|done|].
      - destruct Hl as (a1 & x1 & a2 & E & [Hx _] & Hl2).
        assert (x1 = d') as ->; [|congruence].
        clear -E Hlast Hl2 Henc. assert (Hno : ∀ d', SIndex id d' ∉ a2).
        { intros y Hin. destruct (Henc y) as [v' Hv']; [rewrite E, elem_of_app, elem_of_cons; tauto|]. by eapply Hl2. }
        clear Henc Hl2. revert a1 E. induction c1 as [|c c1 IH]; intros [|c' a1] E; cbn in E.
        + by injection E.
        + injection E as _ E. exfalso. apply (Hlast x1). rewrite E, elem_of_app, elem_of_cons. tauto.
        + injection E as _ E. exfalso. apply (Hno d'). rewrite <-E, elem_of_app, elem_of_cons. tauto.
        + injection E as _ E. by apply (IH a1).
      - exfalso. apply (Hnw d' v'); [rewrite elem_of_app, elem_of_cons; tauto|done]. }
    apply merges_perm in Hres.
    set (f := λ i, storeInit iter decode (dbAfter murmur n dbs (ssLog s) i)) in Hres.
    assert (H1 : (id, d) ∈ f j). { apply (storeInit_in iter Hit decode). exists v. by rewrite other_shard. }
    assert (H2 : (id, d') ∈ f (storeShard murmur n id)). { apply (storeInit_in iter Hit decode). exists v'. split; [done|by apply Hrt]. }
    assert (Hperm : ∃ l, rs ≡ₚ (id, d) :: (id, d') :: l).
    { pose proof (shard_range murmur n id ltac:(lia)) as Hs.
      assert (Hj1 : j ∈ seqZ 0 n) by (apply elem_of_seqZ; lia).
      assert (Hj2 : storeShard murmur n id ∈ seqZ 0 n) by (apply elem_of_seqZ; lia).
      apply elem_of_Permutation in Hj1 as [l1 E1]. rewrite E1 in Hj2. apply elem_of_cons in Hj2 as [?|Hj2]; [done|].
      apply elem_of_Permutation in Hj2 as [l2 E2]. apply elem_of_Permutation in H1 as [k1 K1]. apply elem_of_Permutation in H2 as [k2 K2].
      exists (k1 ++ k2 ++ mjoin (f <$> l2)). rewrite Hres.
      assert (f <$> seqZ 0 n ≡ₚ f j :: f (storeShard murmur n id) :: (f <$> l2)) as -> by (rewrite E1, E2; done).
      rewrite !join_cons, K1, K2. solve_Permutation. }
    destruct Hperm as [l Hperm]. symmetry in Hperm.
    assert (G : ∃ g : nat → nat, Inj (=) (=) g ∧ ∀ i, ((id, d) :: (id, d') :: l) !! i = rs !! g i).
    { apply Permutation_inj in Hperm as (_ & g & Hg & Hi). by exists g. }
    destruct G as (g & Hg & Hi). exists (g 0%nat), (g 1%nat). split; [|by rewrite <-!Hi].
    intros E. by apply Hg in E.
  Qed.
End End_.

(** * Listing the database *)
Section Listing.
  Variable iter : kv → list (string * string).
  Hypothesis Hiter : valid_iter iter.
  Variable decode : string → DocData * bool.
  Variables (murmur : string → Z) (n : Z) (dbs : Z → kv).
  Hypothesis Hn : 1 <= n < 2^32.
  Hypothesis Hp : placed murmur n dbs.

  Let noData : DocData := mkData "" INil [] [] INil.
  Let dec0 (_ : string) : DocData * bool := (noData, false).

  Lemma list_all : (GetDBAllIds iter (dbs <$> seqZ 0 n)) = (mjoin ((λ j, storeInit iter dec0 (dbs j)) <$> seqZ 0 n)).*1.
  Proof.
    rewrite GetDBAllIds_eq. induction (seqZ 0 n) as [|j js IH]; [done|]. rewrite !fmap_cons, !join_cons, fmap_app. f_equal; [|done].
    rewrite (storeInit_eq iter dec0). induction (iter (dbs j)) as [|[k v] l IHl]; [done|]. cbn. by f_equal.
  Qed.
  Lemma ids_lem : NoDup (GetDBAllIds iter (dbs <$> seqZ 0 n)) ∧
    ∀ id, id ∈ GetDBAllIds iter (dbs <$> seqZ 0 n) ↔ is_Some (dbs (storeShard murmur n id) !! id).
  Proof.
    assert (Hres : restart iter dec0 n dbs (mjoin ((λ j, storeInit iter dec0 (dbs j)) <$> seqZ 0 n))) by apply merges_total.
    rewrite list_all. split; [by eapply restart_nodup|]. intros id. split.
    - intros ([id' d] & -> & Hin)%elem_of_list_fmap. apply (restart_in iter Hiter dec0 _ _ _ _ _ Hres) in Hin as (j & v & Hj & Hv & _).
      cbn. rewrite (Hp j id' Hj); eauto.
    - intros [v Hv]. apply elem_of_list_fmap. exists (id, noData). split; [done|].
      apply (restart_in iter Hiter dec0 _ _ _ _ _ Hres). exists (storeShard murmur n id), v. split; [apply shard_range; lia|done].
  Qed.

  Lemma docs_lem ids docs : GetDBAllDocs iter decode (dbs <$> seqZ 0 n) = (ids, docs) →
    ids = GetDBAllIds iter (dbs <$> seqZ 0 n) ∧ length docs = length ids ∧
    ∀ id d, (id, d) ∈ zip ids docs ↔ ∃ v, dbs (storeShard murmur n id) !! id = Some v ∧ d = (decode v).1.
  Proof.
    rewrite GetDBAllDocs_eq. intros [= <- <-]. rewrite GetDBAllIds_eq. split; [done|].
    assert (Hz : ∀ l : list kv, length (mjoin ((λ db, (λ p, (decode p.2).1) <$> iter db) <$> l)) = length (mjoin ((λ db, (iter db).*1) <$> l)) ∧
      zip (mjoin ((λ db, (iter db).*1) <$> l)) (mjoin ((λ db, (λ p, (decode p.2).1) <$> iter db) <$> l)) =
      mjoin ((λ db, (λ p, (p.1, (decode p.2).1)) <$> iter db) <$> l)).
    { induction l as [|db l [IH1 IH2]]; [done|]. rewrite !fmap_cons, !join_cons. split; [by rewrite !app_length, IH1, !fmap_length|].
      rewrite zip_with_app by by rewrite !fmap_length. rewrite IH2. f_equal. clear. generalize (iter db). intros l.
      induction l as [|p l IH]; [done|]. rewrite !fmap_cons. cbn. by f_equal. }
    destruct (Hz (dbs <$> seqZ 0 n)) as [Hz1 Hz2]. split; [done|]. intros id d. rewrite Hz2, elem_of_list_join. split.
    - intros (l & Hin & (db & -> & (j & -> & Hj%elem_of_seqZ)%elem_of_list_fmap)%elem_of_list_fmap).
      apply elem_of_list_fmap in Hin as ([k v] & E & Hin). injection E as -> ->. rewrite (Hiter (dbs j)) in Hin. apply elem_of_map_to_list in Hin.
      exists v. cbn. rewrite (Hp j k ltac:(lia)) by by eexists. done.
    - intros (v & Hv & ->). eexists. split; [|apply elem_of_list_fmap; exists (dbs (storeShard murmur n id)); split; [done|]].
      + apply elem_of_list_fmap. exists (id, v). split; [done|]. rewrite (Hiter _). by apply elem_of_map_to_list.
      + apply elem_of_list_fmap. exists (storeShard murmur n id). split; [done|]. apply elem_of_seqZ. pose proof (shard_range murmur n id). lia.
  Qed.
End Listing.
