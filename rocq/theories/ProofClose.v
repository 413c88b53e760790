(** What is in the files after Close. *)
From Verif Require Import ModelStore ModelClose SpecStore SpecClose SpecIndexer ProofSegment ProofTopK ProofEngine ProofStore ProofStoreRun ProofStoreThms.

Section Close.
  Variable accepts : string → string → bool.
  Variable encode : DocData → option string.
  Variable murmur : string → Z.
  Variable n : Z.
  Hypothesis Hn : 1 <= n < 2^32.
  Notation sstep := (storeStep accepts encode murmur n).
  Notation cstep := (closeStep accepts encode murmur n).
  Notation sreach := (store_reach accepts encode murmur n).
  Notation creach := (close_reach accepts encode murmur n).
  Notation istep := (istep accepts encode murmur n).

  (** * A single client that ended with Flush leaves idle workers *)
  Definition ending (s : sstate) : Prop :=
    ∃ c, ssClients s = [c] ∧ ((∃ pre, todo c = pre ++ [SLoop]) ∨ todo c = [SLoopReqs] ∨ (todo c = [] ∧ Forall (eq WIdle) (ssWork s))).
  Lemma idle_workers w : workers isHold w <= 0 → workers isWritten w <= 0 → Forall (eq WIdle) w.
  Proof.
    intros H1 H2. apply Forall_lookup. intros j x Hx. pose proof (workers_zero isHold _ _ _ H1 Hx). pose proof (workers_zero isWritten _ _ _ H2 Hx).
    by destruct x.
  Qed.
  Lemma todo_cut (a : sact) acts pre : a :: acts = pre ++ [SLoop] → a ≠ SLoop → ∃ pre', acts = pre' ++ [SLoop].
  Proof. destruct pre as [|b pre]; [by intros [= -> _]|]. intros [= -> ->]. eauto. Qed.
  Lemma ending_step cs s s' : counted s → one cs s → istep s s' → ending s → ending s'.
  Proof.
    intros HC HO Hs (c0 & Hc & Hf). destruct HO as (c1 & Hc1 & _ & Hq & Hg & _). rewrite Hc in Hc1. injection Hc1 as <-.
    destruct Hs; cbn [ssClients ssLog ssWork ssDels] in *; subst.
    1-10: destruct k as [|k]; [|done]; cbn in H; injection H as ->; cbn [list_insert insert];
      eexists; (split; [done|]); unfold todo in *; cbn [scActs scCalls ssWork] in *.
    - rewrite H0, H1, fmap_cons, join_cons in Hf. by cbn [app] in Hf.
    - rewrite H0 in Hf. destruct Hf as [[pre Hf]|[Hf|[Hf _]]]; [|done|done]. left. by eapply todo_cut.
    - rewrite H0 in Hf. destruct Hf as [[pre Hf]|[Hf|[Hf _]]]; [|done|done]. left. by eapply todo_cut.
    - rewrite H0 in Hf. destruct Hf as [[pre Hf]|[Hf|[Hf _]]]; [|done|done]. left. by eapply todo_cut.
    - rewrite H0 in Hf. destruct Hf as [[pre Hf]|[Hf|[Hf _]]]; [|done|done]. left. by eapply todo_cut.
    - rewrite H0 in Hf. destruct Hf as [[pre Hf]|[Hf|[Hf _]]]; [|done|done]. destruct pre as [|b pre]; [|left; injection Hf as -> Hf; eauto].
      injection Hf as Hf. right; right. split; [done|]. rewrite H0 in Hg, Hq. rewrite Z.add_0_r in Hq.
      unfold counted in HC. cbn [ssLog ssWork] in HC. pose proof (workers_nonneg isHold w). pose proof (workers_nonneg isWritten w).
      apply idle_workers; lia.
    - rewrite H0 in Hf. destruct Hf as [[pre Hf]|[Hf|[Hf _]]]; [|done|done]. left. exists (SRead :: pre). cbn. f_equal. done.
    - rewrite H0 in Hf. destruct Hf as [[pre Hf]|[Hf|[Hf _]]]; [|done|done]. cbn [app] in *. destruct pre as [|a [|b pre]]; [done| |].
      + right; left. injection Hf as _ Hf. by f_equal.
      + left. injection Hf as _ _ Hf. exists (SLoopReqs :: pre). cbn [app]. by f_equal.
    - rewrite H0 in Hf. destruct Hf as [[pre Hf]|[Hf|[Hf _]]]; [left; by eapply todo_cut| |done]. right; right. injection Hf as Hf.
      split; [done|]. rewrite H0 in Hg, Hq. rewrite Z.add_0_r in Hq.
      unfold counted in HC. cbn [ssLog ssWork] in HC. pose proof (workers_nonneg isHold w). pose proof (workers_nonneg isWritten w).
      apply idle_workers; lia.
    - rewrite H0 in Hf. destruct Hf as [[pre Hf]|[Hf|[Hf _]]]; [| |done]; left; cbn [app] in *.
      + apply todo_cut in Hf as [pre' Hf]; [|done]. exists (SRead :: SLoop :: pre'). cbn [app]. by do 2 f_equal.
      + injection Hf as Hf. exists [SRead]. cbn [app]. by do 2 f_equal.
    - exists c0. split; [done|]. destruct Hf as [Hf|[Hf|[_ Hw]]]; [by left|by right; left|]. rewrite Forall_lookup in Hw. cbn [ssWork] in Hw. by apply Hw in H.
    - exists c0. split; [done|]. destruct Hf as [Hf|[Hf|[_ Hw]]]; [by left|by right; left|]. rewrite Forall_lookup in Hw. cbn [ssWork] in Hw. by apply Hw in H.
    - exists c0. by split.
  Qed.
  Lemma flush_done cs s : sreach [cs ++ [SFlush]] s → clients_done s → Forall (eq WIdle) (ssWork s).
  Proof.
    intros Hr Hd. assert (H : ending s ∧ counted s).
    { clear Hd. unfold store_reach in Hr. revert s Hr. apply (rtc_ind_r (R := sstep) (λ s, ending s ∧ counted s)).
      - split.
        + eexists. split; [done|]. left. unfold todo. cbn [scActs scCalls app]. rewrite fmap_app, join_app.
          exists (mjoin (scallActs <$> cs) ++ [SRead]). by rewrite <-app_assoc.
        + unfold counted. cbn. unfold workers. induction (Z.to_nat n) as [|m IH]; [done|]. cbn [replicate]. by rewrite !filter_cons.
      - intros y z Hy Hs%step_i [I1 I2]. split; [|by eapply counted_step].
        eapply ending_step; [done|by eapply one_reach|done|done]. }
    destruct H as [(c & Hc & Hf) _]. unfold clients_done in Hd. rewrite Hc in Hd. apply Forall_cons in Hd as [[E1 E2] _].
    unfold todo in Hf. rewrite E1, E2 in Hf. destruct Hf as [[pre Hf]|[Hf|[_ ?]]]; [by destruct pre|done|done].
  Qed.

  (** * Phases of a single client that closes *)
  Notation N := (Z.to_nat n).
  Definition withCalls (pre : list scall) (s : sstate) : sstate :=
    mkSS ((λ c, mkSC (scCalls c ++ pre) (scActs c) (scReg c)) <$> ssClients s) (ssWork s) (ssDels s) (ssLog s).
  Definition snap (cs : list scall) (log : list sevent) (o : option (option nat)) (s : sstate) : Prop :=
    ∃ p ds, o = Some (Some p) ∧ (p <= length log)%nat ∧ ssLog s = take p log ++ (EvDel <$> ds).
  Definition rest_state (cs : list scall) (s : sstate) : Prop :=
    sreach [cs ++ [SFlush]] s ∧ clients_done s ∧ Forall (eq WIdle) (ssWork s).
  Definition phase (cs : list scall) (rest : list ccall) (w : cstate) : Prop :=
    (∃ pre, csRem w = [(CCall <$> pre) ++ (CDown <$> seq 0 N) ++ rest] ∧ csDown w = replicate N None ∧
       sreach [cs ++ [SFlush]] (withCalls pre (csBase w))) ∨
    (∃ m, (0 < m <= N)%nat ∧ csRem w = [(CDown <$> seq m (N - m)) ++ rest] ∧ rest_state cs (csBase w) ∧ length (csDown w) = N ∧
       (∀ j, (j < m)%nat → snap cs (ssLog (csBase w)) (csDown w !! j) (csBase w)) ∧
       (∀ j, (m <= j < N)%nat → csDown w !! j = Some None)) ∨
    (∃ s, rest_state cs s ∧ length (csDown w) = N ∧ ∀ j, (j < N)%nat → snap cs (ssLog (csBase w)) (csDown w !! j) s).

  Lemma snap_grow cs log l o s : snap cs log o s → snap cs (log ++ l) o s.
  Proof. intros (p & ds & -> & Hp & E). exists p, ds. rewrite app_length, take_app_le by done. split; [done|]. split; [lia|done]. Qed.
  Lemma log_grows s s' : istep s s' → ∃ l, ssLog s' = ssLog s ++ l.
  Proof. destruct 1; cbn [ssLog]; eauto; exists []; by rewrite app_nil_r. Qed.
  Lemma idle_step cs s s' : rest_state cs s → sstep s s' → rest_state cs s' ∧ ∃ id, ssLog s' = ssLog s ++ [EvDel id].
  Proof.
    intros (Hr & Hd & Hw) Hs. assert (Hr' : sreach [cs ++ [SFlush]] s') by (eapply rtc_r; done).
    apply step_i in Hs. destruct Hs; unfold clients_done in *; cbn [ssClients ssWork ssLog] in *.
    1-10: rewrite Forall_lookup in Hd; apply Hd in H as [? ?]; congruence.
    1-2: rewrite Forall_lookup in Hw; by apply Hw in H.
    split; [done|]. eauto.
  Qed.
  Lemma client_with pre k s s' : smoveStep accepts encode murmur n (MClient k) s = Some s' →
    smoveStep accepts encode murmur n (MClient k) (withCalls pre s) = Some (withCalls pre s').
  Proof.
    destruct s as [cl w d l]. cbn [smoveStep]. unfold clientStep, withCalls. cbn [ssClients ssWork ssDels ssLog]. rewrite list_lookup_fmap.
    destruct (cl !! k) as [c|]; [|done]. cbn [fmap option_fmap option_map mbind option_bind scActs scCalls scReg].
    destruct (scActs c) as [|a acts].
    - destruct (scCalls c) as [|call cs]; [done|]. cbn [app]. intros [= <-]. cbn [ssClients ssWork ssDels ssLog]. by rewrite list_fmap_insert.
    - destruct a; try (intros [= <-]; cbn [ssClients ssWork ssDels ssLog]; by rewrite list_fmap_insert).
      + destruct (w !! _) as [[]|]; try done. intros [= <-]. cbn [ssClients ssWork ssDels ssLog]. by rewrite list_fmap_insert.
  Qed.
  Lemma step_with pre s s' : sstep s s' → sstep (withCalls pre s) (withCalls pre s').
  Proof.
    intros [[k|k|j|k] H].
    - exists (MClient k). by apply client_with.
    - exists (MAlt k). destruct s as [cl w d l]. cbn [smoveStep] in *. unfold altRead, withCalls in *. cbn [ssClients ssWork ssDels ssLog] in *.
      rewrite list_lookup_fmap. destruct (cl !! k) as [c|]; [|done]. cbn [fmap option_fmap option_map mbind option_bind scActs scCalls scReg] in *.
      destruct (scActs c) as [|[] [|[] acts]]; try done. injection H as <-. cbn [ssClients ssWork ssDels ssLog]. by rewrite list_fmap_insert.
    - exists (MWorker j). destruct s as [cl w d l]. cbn in *. unfold workerStep in *. cbn in *. destruct (w !! j) as [[]|]; try done; by injection H as <-.
    - exists (MDel k). destruct s as [cl w d l]. cbn in *. unfold delStep in *. cbn in *. destruct (d !! k) as [id|]; [|done]. by injection H as <-.
  Qed.
  Lemma with_nil s : withCalls [] s = s.
  Proof.
    destruct s as [cl w d l]. unfold withCalls. cbn. f_equal. rewrite <-(list_fmap_id cl) at 2. apply list_fmap_ext.
    intros i [a b r] _. cbn. by rewrite app_nil_r.
  Qed.
  Lemma one_client cs s : sreach [cs] s → ∃ c, ssClients s = [c].
  Proof. intros H. destruct (one_reach accepts encode murmur n _ _ H) as (c & ? & _). eauto. Qed.

  Lemma phase_step cs rest w w' : cstep w w' → phase cs rest w → phase cs rest w'.
  Proof.
    intros [m Hs] HP. destruct m as [m|k]; cbn in Hs.
    - destruct (smoveStep _ _ _ _ m (csBase w)) as [b|] eqn:Eb; [|done]. cbn in Hs. injection Hs as <-.
      assert (Hst : sstep (csBase w) b) by by exists m.
      destruct HP as [(pre & H1 & H2 & H3)|[(mm & Hm & H1 & H2 & Hl & H3 & H4)|(s & H1 & Hl & H2)]].
      + left. exists pre. cbn. split; [done|]. split; [done|]. eapply rtc_r; [done|]. by apply step_with.
      + right; left. exists mm. destruct (idle_step _ _ _ H2 Hst) as (H2' & id & El). cbn. split; [done|]. split; [done|]. split; [done|].
        split; [done|]. split; [|done].
        intros j Hj. destruct (H3 j Hj) as (p & ds & E1 & E2 & E3). exists p, (ds ++ [id]). split; [done|]. rewrite El, app_length.
        split; [lia|]. rewrite take_app_le by done. rewrite fmap_app, app_assoc. f_equal. done.
      + right; right. exists s. cbn. split; [done|]. split; [done|]. intros j Hj. apply step_i, log_grows in Hst as [l ->].
        by apply snap_grow, H2.
    - destruct HP as [(pre & H1 & H2 & H3)|[(mm & Hm & H1 & H2 & Hl & H3 & H4)|(s & H1 & Hl & H2)]].
      + destruct (one_client _ _ H3) as [c0 Hc0]. destruct w as [[cl wk d l] rem dn]. cbn [csBase csRem csDown ssClients ssWork ssDels ssLog] in *.
        unfold withCalls in Hc0. cbn in Hc0. destruct cl as [|c [|]]; [done| |done]. subst.
        destruct k as [|k]; [|done]. cbn [lookup list_lookup mbind option_bind] in Hs.
        destruct (scCalls c) eqn:Ec; [|done]. destruct (scActs c) eqn:Ea; [|done].
        destruct pre as [|call pre].
        * (* the first database *)
          rewrite with_nil in H3.
          assert (HR : rest_state cs (mkSS [c] wk d l)).
          { assert (Hd : clients_done (mkSS [c] wk d l)) by (by constructor; [split|constructor]).
            split; [done|]. split; [done|]. by eapply flush_done. }
          assert (HN : ∃ N', N = S N') by (exists (pred N); lia). destruct HN as [N' HN]. rewrite HN in Hs. cbn in Hs. injection Hs as <-.
          right; left. exists 1%nat. cbn [csRem csDown csBase ssLog]. split; [lia|].
          split; [by rewrite HN; cbn; rewrite Nat.sub_0_r|]. split; [done|].
          split; [rewrite HN; cbn; by rewrite replicate_length|].
          split.
          -- intros j Hj. assert (j = 0%nat) as -> by lia. exists (length l), []. cbn. split; [done|]. split; [done|].
             by rewrite firstn_all, app_nil_r.
          -- intros j Hj. destruct j as [|j]; [lia|]. cbn. apply lookup_replicate. split; [done|lia].
        * cbn in Hs. injection Hs as <-. left. exists pre. cbn [csRem csDown csBase]. split; [done|]. split; [done|].
          unfold withCalls in *. cbn in *. rewrite Ec, Ea in H3. done.
      + destruct H2 as (Hr & Hd & Hw). destruct (one_client _ _ Hr) as [c Hc]. destruct w as [b rem dn]. cbn [csBase csRem csDown] in *. subst rem.
        rewrite Hc in Hs. destruct k as [|k]; [|done]. cbn [lookup list_lookup mbind option_bind] in Hs.
        destruct (scCalls c) eqn:Ec; [|done]. destruct (scActs c) eqn:Ea; [|done].
        destruct (decide (mm = N)) as [->|Hne].
        * right; right. exists b. split; [done|]. rewrite Nat.sub_diag in Hs. cbn [seq fmap list_fmap app] in Hs.
          destruct rest as [|[call|j] rest]; [done| |]; injection Hs as <-; cbn [csBase csDown ssLog].
          -- done.
          -- assert (E : match dn !! j with Some None => <[j:=Some (length (ssLog b))]> dn | _ => dn end = dn).
             { destruct (decide (j < N)%nat) as [Hj|Hj].
               - destruct (H3 j Hj) as (p & ? & -> & _). done.
               - rewrite lookup_ge_None_2 by lia. done. }
             rewrite E. done.
        * assert (HN : ∃ N', (N - mm = S N')%nat) by (exists (pred (N - mm)); lia). destruct HN as [N' HN]. rewrite HN in Hs. cbn in Hs.
          injection Hs as <-. rewrite (H4 mm) by lia. right; left. exists (S mm). cbn [csBase csRem csDown]. split; [lia|].
          split; [by replace (N - S mm)%nat with N' by lia|]. split; [done|]. split; [by rewrite insert_length|]. split.
          -- intros j Hj. destruct (decide (j = mm)) as [->|Hjm].
             ++ rewrite list_lookup_insert by lia. exists (length (ssLog b)), []. split; [done|]. split; [done|]. by rewrite firstn_all, app_nil_r.
             ++ rewrite list_lookup_insert_ne by done. apply H3. lia.
          -- intros j Hj. rewrite list_lookup_insert_ne by lia. apply H4. lia.
      + right; right. exists s. destruct (ssClients (csBase w) !! k) as [c|]; [|done]. destruct (csRem w !! k) as [r|]; [|done]. cbn in Hs.
        destruct (scCalls c), (scActs c), r as [|[call|j] r]; try done; injection Hs as <-; cbn [csBase csDown ssLog].
        * done.
        * assert (E : match csDown w !! j with Some None => <[j:=Some (length (ssLog (csBase w)))]> (csDown w) | _ => csDown w end = csDown w).
          { destruct (decide (j < N)%nat) as [Hj|Hj].
            - destruct (H2 j Hj) as (p & ? & -> & _). done.
            - rewrite lookup_ge_None_2 by lia. done. }
          by rewrite E.
  Qed.

  Definition closing (cs : list scall) (rest : list ccall) : list ccall := (CCall <$> cs) ++ CloseCalls n ++ rest.
  Lemma phase_reach cs rest w : creach [closing cs rest] w → phase cs rest w.
  Proof.
    intros H. unfold close_reach in H. revert w H. apply (rtc_ind_r (R := cstep) (phase cs rest)).
    - left. exists (cs ++ [SFlush]). cbn. split.
      + unfold closing, CloseCalls. by rewrite fmap_app, <-app_assoc.
      + split; [done|]. apply rtc_refl.
    - intros y z _ Hs. by apply phase_step.
  Qed.
  Lemma close_lem dbs cs rest w : creach [closing cs rest] w → all_down n w →
    ∃ s, rest_state cs s ∧ ∀ j, 0 <= j < n → ∃ l ds, ssLog s = l ++ (EvDel <$> ds) ∧ fileAt murmur n dbs w j = dbAfter murmur n dbs l j.
  Proof.
    intros Hr Hdown. assert (Hsn : ∃ s, rest_state cs s ∧ ∀ j, (j < N)%nat → snap cs (ssLog (csBase w)) (csDown w !! j) s).
    { destruct (phase_reach _ _ _ Hr) as [(pre & H1 & H2 & H3)|[(mm & Hm & H1 & H2 & Hl & H3 & H4)|(s & H1 & Hl & H2)]].
      - exfalso. destruct (Hdown 0 ltac:(lia)) as [p Hp]. rewrite H2 in Hp. apply lookup_replicate in Hp as [? _]. done.
      - exists (csBase w). split; [done|]. intros j Hj. destruct (decide (j < mm)%nat); [by apply H3|].
        exfalso. destruct (Hdown (Z.of_nat j) ltac:(lia)) as [p Hp]. rewrite Nat2Z.id, H4 in Hp by lia. done.
      - eauto. }
    destruct Hsn as (s & Hrs & Hsn). exists s. split; [done|]. intros j Hj. destruct (Hsn (Z.to_nat j) ltac:(lia)) as (p & ds & E1 & E2 & E3).
    exists (take p (ssLog (csBase w))), ds. split; [done|]. unfold fileAt. by rewrite E1.
  Qed.

  (** * The values *)
  Lemma writes_dels id l ds : writes id (l ++ (EvDel <$> ds)) = writes id l.
  Proof.
    unfold writes. rewrite omap_app. assert (omap (λ e, match e with EvWrite id' v => if decide (id' = id) then Some v else None | _ => None end) (EvDel <$> ds) = []) as ->.
    { induction ds as [|x ds IH]; [done|]. cbn. exact IH. }
    by rewrite app_nil_r.
  Qed.
  Lemma rest_writes cs s id : id ≠ "0" → rest_state cs s → writes id (ssLog s) = puts accepts encode id cs.
  Proof.
    intros H0 (Hr & Hd & Hw). pose proof (sinv_reach accepts encode murmur n _ _ Hr) as [_ _ Hf _]. specialize (Hf id).
    rewrite hold_idle, app_nil_r in Hf by done. rewrite <-Hf, sents_requests, (quiet_requests accepts encode murmur n _ _ Hr Hd), puts_ordinary by done.
    unfold puts. rewrite omap_app. apply app_nil_r.
  Qed.
  Lemma rest_dels cs s id : rest_state cs s → EvDel id ∈ ssLog s ∨ id ∈ ssDels s → SRemove id ∈ cs.
  Proof.
    intros (Hr & Hd & Hw) Hin. pose proof (sinv_reach accepts encode murmur n _ _ Hr) as [_ _ _ Hs]. specialize (Hs id).
    assert (H : (0 < spawned id (ssLog s))%nat).
    { destruct Hin as [Hin|Hin]; [apply deleted_in in Hin; lia|]. rewrite Hs.
      assert (Hx : id ∈ filter (λ x, x = id) (ssDels s)) by by apply elem_of_list_filter.
      unfold pending. destruct (filter _ (ssDels s)); [by apply elem_of_nil in Hx|cbn; lia]. }
    apply spawned_in in H. rewrite (quiet_requests accepts encode murmur n _ _ Hr Hd), elem_of_list_filter, elem_of_app, elem_of_list_singleton in H.
    by destruct H as [_ [?|?]].
  Qed.
  Lemma closed_lem dbs cs rest w id : id ≠ "0" → creach [closing cs rest] w → all_down n w →
    closed_value accepts encode (dbs (storeShard murmur n id) !! id) cs id (fileAt murmur n dbs w (storeShard murmur n id) !! id).
  Proof.
    intros H0 Hr Hdown. destruct (close_lem dbs _ _ _ Hr Hdown) as (s & Hrs & Hj).
    destruct (Hj (storeShard murmur n id)) as (l & ds & E1 & ->); [apply shard_range; lia|].
    pose proof (rest_writes _ _ id H0 Hrs) as Hw. rewrite E1, writes_dels in Hw. unfold closed_value.
    destruct (content_cases accepts murmur n dbs id l) as [(v & w1 & w2 & H1 & H2 & H3)|[[H1 H2]|(H1 & H2 & H3)]].
    - left. exists v. split; [|done]. rewrite Hw in H1. apply puts_inv in H1 as (cs1 & d & cs2 & -> & E & <-).
      exists cs1, d, cs2. split; [done|]. split; [by apply written_writable|]. by apply puts_none.
    - right; left. split; [|done]. apply (rest_dels _ _ _ Hrs). left. rewrite E1. apply elem_of_app. by left.
    - right; right. split; [|done]. rewrite Hw in H2. by apply puts_none.
  Qed.
  Lemma closed_quiet dbs cs rest w : (∀ id, SRemove id ∉ cs) → creach [closing cs rest] w → all_down n w →
    ∃ s, sreach [cs ++ [SFlush]] s ∧ store_quiet s ∧ ∀ j, 0 <= j < n → fileAt murmur n dbs w j = dbAfter murmur n dbs (ssLog s) j.
  Proof.
    intros Hno Hr Hdown. destruct (close_lem dbs _ _ _ Hr Hdown) as (s & Hrs & Hj). exists s. pose proof Hrs as (H1 & H2 & H3).
    split; [done|]. split.
    - split; [done|]. split; [done|]. destruct (ssDels s) as [|id ds] eqn:E; [done|]. exfalso. apply (Hno id), (rest_dels _ _ _ Hrs). right. rewrite E. left.
    - intros j Hjn. destruct (Hj j Hjn) as (l & ds & E & ->). destruct ds as [|id ds]; [by rewrite E, app_nil_r|].
      exfalso. apply (Hno id), (rest_dels _ _ _ Hrs). left. rewrite E. apply elem_of_app. right. left.
  Qed.

  (** * Closed files stay as they are, whatever the clients do *)
  Lemma final_lem dbs w w' j p : rtc cstep w w' → csDown w !! Z.to_nat j = Some (Some p) → (p <= length (ssLog (csBase w)))%nat →
    csDown w' !! Z.to_nat j = Some (Some p) ∧ (p <= length (ssLog (csBase w')))%nat ∧ fileAt murmur n dbs w' j = fileAt murmur n dbs w j.
  Proof.
    induction 1 as [w|w1 w2 w3 [m Hs] _ IH]; [done|]. intros Hd Hp.
    assert (H : csDown w2 !! Z.to_nat j = Some (Some p) ∧ ∃ l, ssLog (csBase w2) = ssLog (csBase w1) ++ l).
    { destruct m as [m|k]; cbn in Hs.
      - destruct (smoveStep _ _ _ _ m (csBase w1)) as [b|] eqn:Eb; [|done]. cbn in Hs. injection Hs as <-. split; [done|].
        eapply log_grows, step_i. by exists m.
      - destruct (ssClients (csBase w1) !! k) as [c|]; [|done]. destruct (csRem w1 !! k) as [r|]; [|done]. cbn in Hs.
        destruct (scCalls c), (scActs c), r as [|[call|j'] r]; try done; injection Hs as <-; cbn [csBase csDown ssLog];
          (split; [|exists []; by rewrite app_nil_r]); [done|].
        destruct (csDown w1 !! j') as [[|]|] eqn:Ej; try done. destruct (decide (j' = Z.to_nat j)) as [->|]; [congruence|].
        by rewrite list_lookup_insert_ne. }
    destruct H as (Hd2 & l & Hl). destruct IH as (I1 & I2 & I3); [done|rewrite Hl, app_length; lia|]. split; [done|]. split; [done|].
    rewrite I3. unfold fileAt. rewrite Hd, Hd2, Hl, take_app_le by done. done.
  Qed.
  Definition down_inv (w : cstate) : Prop := ∀ j p, csDown w !! j = Some (Some p) → (p <= length (ssLog (csBase w)))%nat.
  Lemma down_reach progs w : creach progs w → down_inv w.
  Proof.
    intros H. unfold close_reach in H. revert w H. apply (rtc_ind_r (R := cstep) down_inv).
    - intros j p Hj. cbn in Hj. apply lookup_replicate in Hj as [? _]. done.
    - intros w1 w2 _ [m Hs] IH j p. destruct m as [m|k]; cbn in Hs.
      + destruct (smoveStep _ _ _ _ m (csBase w1)) as [b|] eqn:Eb; [|done]. cbn in Hs. injection Hs as <-. cbn [csDown csBase]. intros Hj%IH.
        destruct (log_grows (csBase w1) b) as [l ->]; [apply step_i; by exists m|]. rewrite app_length. lia.
      + destruct (ssClients (csBase w1) !! k) as [c|]; [|done]. destruct (csRem w1 !! k) as [r|]; [|done]. cbn in Hs.
        destruct (scCalls c), (scActs c), r as [|[call|j'] r]; try done; injection Hs as <-; cbn [csBase csDown ssLog]; [apply IH|].
        destruct (csDown w1 !! j') as [[|]|] eqn:Ej; [apply IH| |apply IH]. destruct (decide (j = j')) as [->|Hne].
        * rewrite list_lookup_insert by (by eapply lookup_lt_Some). by intros [= <-].
        * rewrite list_lookup_insert_ne by done. apply IH.
  Qed.
  Lemma frozen_lem dbs progs w w' j : creach progs w → is_Some (mjoin (csDown w !! Z.to_nat j)) → rtc cstep w w' →
    fileAt murmur n dbs w' j = fileAt murmur n dbs w j.
  Proof.
    intros Hr [p Hp] Hs. destruct (csDown w !! Z.to_nat j) as [[q|]|] eqn:E; try done. 
    by destruct (final_lem dbs _ _ _ _ Hs E (down_reach _ _ Hr _ _ E)) as (_ & _ & ?).
  Qed.
End Close.
