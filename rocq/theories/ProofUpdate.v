(** Searches after updates, with one segmenter. *)
From Verif Require Import ModelPipe ModelEngine ModelFlight SpecIndexer SpecSearch SpecRank SpecRoute SpecPipe SpecEngine SpecFlight SpecEnd SpecUpdate
  ProofIxThms ProofIxMap ProofSearchThms ProofRanker ProofTopK ProofRoute ProofPipe ProofBlocks ProofFlush ProofFlushThms ProofEngine ProofFlightCrash ProofFits ProofEnd ProofOrder.

Lemma interleaved_elem {A} (ls : list (list A)) cs : interleaved ls cs → ∀ c, c ∈ cs ↔ ∃ l, l ∈ ls ∧ c ∈ l.
Proof.
  induction 1 as [ls H|ls k l c cs H IH Hk]; intros x.
  - split; [by intros ?%elem_of_nil|]. intros (l & Hl & Hx). rewrite Forall_forall in H. by rewrite (H l Hl) in Hx.
  - rewrite elem_of_app, elem_of_list_singleton, IH. split.
    + intros [(l' & Hl' & Hx)| ->].
      * apply elem_of_list_lookup in Hl' as [j Hj]. destruct (decide (j = k)) as [->|Hne].
        -- rewrite Hk in Hj. injection Hj as <-. exists (l ++ [c]). split; [|rewrite elem_of_app; by left].
           eapply elem_of_list_lookup_2, list_lookup_insert. by eapply lookup_lt_Some.
        -- exists l'. split; [|done]. apply (elem_of_list_lookup_2 _ j). by rewrite list_lookup_insert_ne.
      * exists (l ++ [c]). split; [|rewrite elem_of_app; right; by left].
        eapply elem_of_list_lookup_2, list_lookup_insert. by eapply lookup_lt_Some.
    + intros (l' & Hl' & Hx). apply elem_of_list_lookup in Hl' as [j Hj].
      apply list_lookup_insert_Some in Hj as [(-> & <- & _)|[_ Hj]].
      * apply elem_of_app in Hx as [Hx|Hx%elem_of_list_singleton]; [left|by right]. exists l. split; [by eapply elem_of_list_lookup_2|done].
      * left. exists l'. split; [by eapply elem_of_list_lookup_2|done].
Qed.
Lemma interleaved_one {A} (l cs : list A) : interleaved [l] cs → cs = l.
Proof.
  assert (H : ∀ (ls : list (list A)) cs, interleaved ls cs → ∀ l, ls = [l] → cs = l).
  { induction 1 as [ls H|ls k l0 c cs0 H IH Hk]; intros l1 E.
    - subst. apply Forall_cons in H as [H _]. by rewrite H.
    - destruct ls as [|l2 [|l3 ls]].
      + done.
      + destruct k as [|k]; [|done]. injection Hk as ->. cbn in E. injection E as <-. by rewrite (IH l0 eq_refl).
      + exfalso. apply (f_equal length) in E. rewrite insert_length in E. done. }
  intros Hi. by apply (H [l]).
Qed.

Section Update.
  Context (murmur : string → Z) (n : Z) (only reqsFirst : bool) (cap : chan → nat).
  Context (Hn : 1 <= n < 2^32).
  Notation reachp nseg progs := (pipe_reach murmur n only reqsFirst cap nseg progs).
  Notation evsM := (evsM murmur n only).
  Notation nr := (λ c, not_removal c = true).

  (** * One order *)
  Definition ixG (i : Z) (e : event) : option op :=
    match e with EvIx j (OpAdd d f) => if j =? i then Some (OpAdd d f) else None | _ => None end.
  Definition rkG (i : Z) (e : event) : option rop :=
    match e with EvRk j (ROAdd d f c) => if j =? i then Some (ROAdd d f c) else None | _ => None end.
  Lemma ixG_filter i log : omap (ixG i) log = filter (λ o, ix_addition o = true) (ixCalls i log).
  Proof.
    induction log as [|e log IH]; [done|]. cbn. unfold ixCalls in *. destruct e as [c|j o|j o]; [done| |done]. cbn.
    destruct o as [d f|id f]; destruct (j =? i); rewrite ?filter_cons; cbn; rewrite ?IH; done.
  Qed.
  Lemma rkG_filter i log : omap (rkG i) log = filter (λ o, rk_addition o = true) (rkCalls i log).
  Proof.
    induction log as [|e log IH]; [done|]. cbn. unfold rkCalls in *. destruct e as [c|j o|j o]; [done|done|]. cbn.
    destruct o as [d f c|id]; destruct (j =? i); rewrite ?filter_cons; cbn; rewrite ?IH; done.
  Qed.
  Lemma filter_all {A} (f : A → bool) l : Forall (λ x, f x = true) l → filter (λ x, f x = true) l = l.
  Proof. induction 1 as [|x l H HF IH]; [done|]. by rewrite filter_cons, decide_True, IH. Qed.
  Lemma ix_all i cs : Forall nr cs → Forall (λ o, ix_addition o = true) (ixStream murmur n i cs).
  Proof.
    induction 1 as [|c cs Hc HF IH]; [constructor|]. unfold ixStream. rewrite fmap_cons, mjoin_cons. apply Forall_app. split; [|done].
    destruct c as [d f ct a fo|id fo|]; [|done|by repeat constructor]. cbn.
    destruct (seqb _ _); [destruct fo; by repeat constructor|]. destruct (_ =? _); [by repeat constructor|]. destruct fo; by repeat constructor.
  Qed.
  Lemma rk_all i cs : Forall nr cs → Forall (λ o, rk_addition o = true) (rkStream murmur n only i cs).
  Proof.
    induction 1 as [|c cs Hc HF IH]; [constructor|]. unfold rkStream. rewrite fmap_cons, mjoin_cons. apply Forall_app. split; [|done].
    destruct c as [d f ct a fo|id fo|]; [|done|by constructor]. cbn.
    destruct (seqb _ _); [by constructor|]. destruct (_ =? _); by repeat constructor.
  Qed.
  Lemma ix_sent i cs : 0 <= i < n → Forall nr cs → omap (ixG i) (mjoin (evsM ∘ MSeg <$> omap qmsg cs)) = ixStream murmur n i cs.
  Proof.
    intros Hi HF. rewrite ixG_filter, <- (filter_all ix_addition (ixStream murmur n i cs)) by by apply ix_all. f_equal.
    induction HF as [|c cs Hc HF IH]; [done|]. change (ixStream murmur n i (c :: cs)) with (ixMsgs murmur n i c ++ ixStream murmur n i cs). rewrite <- IH. clear IH.
    destruct c as [d f ct a fo|id fo|]; [..|done|]; cbn [omap list_omap qmsg]; rewrite fmap_cons, mjoin_cons, ixCalls_app; f_equal.
    - by apply ixCalls_seg.
    - exact (ixCalls_seg murmur n only Hn i (mkDoc "0" f_zero []) INil "" INil true Hi).
  Qed.
  Lemma rk_sent i cs : Forall nr cs → omap (rkG i) (mjoin (evsM ∘ MSeg <$> omap qmsg cs)) = rkStream murmur n only i cs.
  Proof.
    intros HF. rewrite rkG_filter, <- (filter_all rk_addition (rkStream murmur n only i cs)) by by apply rk_all. f_equal.
    induction HF as [|c cs Hc HF IH]; [done|]. change (rkStream murmur n only i (c :: cs)) with (rkMsgs murmur n only i c ++ rkStream murmur n only i cs). rewrite <- IH. clear IH.
    destruct c as [d f ct a fo|id fo|]; [..|done|]; cbn [omap list_omap qmsg]; rewrite fmap_cons, mjoin_cons, rkCalls_app; f_equal.
    - by apply rkCalls_seg.
    - exact (rkCalls_seg murmur n only Hn i (mkDoc "0" f_zero []) INil "" INil true).
  Qed.

  Lemma so_far_lem progs s : reachp 1 progs s →
    ∃ ls cs, interleaved ls cs ∧ Forall2 prefix ls (filter nr <$> progs) ∧
      ∀ i, 0 <= i < n →
        filter (λ o, ix_addition o = true) (ixCalls i (sLog s)) `prefix_of` ixStream murmur n i cs ∧
        filter (λ o, rk_addition o = true) (rkCalls i (sLog s)) `prefix_of` rkStream murmur n only i cs.
  Proof.
    intros H. destruct (oinv_reach murmur n only reqsFirst cap Hn progs s H) as (ls & cs & O).
    exists ls, cs. split; [apply O|].
    assert (HP : Forall2 prefix ls (filter nr <$> progs)).
    { apply Forall2_same_length_lookup_2; [rewrite fmap_length; apply O|]. intros k l l' Hl Hl'.
      apply list_lookup_fmap_inv in Hl' as (prog & -> & Hk). destruct (oi_prog _ _ _ _ _ _ _ O k prog Hk) as (p & l1 & pend & _ & _ & E & -> & _).
      rewrite Hl in E. injection E as <-. by eexists. }
    split; [done|].
    assert (HF : Forall nr cs).
    { apply Forall_forall. intros c Hc. apply (interleaved_elem ls cs (oi_merge _ _ _ _ _ _ _ O)) in Hc as (l & Hl & Hc).
      apply elem_of_list_lookup in Hl as [k Hk]. destruct (Forall2_lookup_l _ _ _ _ _ HP Hk) as (l' & Hl' & [r ->]).
      apply list_lookup_fmap_inv in Hl' as (prog & E & _).
      assert (Hin : c ∈ filter nr prog) by (rewrite <- E; apply elem_of_app; by left). by apply elem_of_list_filter in Hin as [? _]. }
    intros i Hi. split.
    - rewrite <- ixG_filter, <- ix_sent by done. rewrite <- (oi_lane _ _ _ _ _ _ _ O _ (ixG i) (CIxAdd i)); [by eexists|done|].
      intros [c|j [d f|id f]|j o]; try done. cbn. intros Hne. destruct (Z.eqb_spec j i); [by subst|done].
    - rewrite <- rkG_filter, <- rk_sent by done. rewrite <- (oi_lane _ _ _ _ _ _ _ O _ (rkG i) (CRkAdd i)); [by eexists|done|].
      intros [c|j o|j [d f l|id]]; try done. cbn. intros Hne. destruct (Z.eqb_spec j i); [by subst|done].
  Qed.

  Lemma order_lem progs s : reachp 1 progs s → quiescent s →
    ∃ cs, interleaved (filter nr <$> progs) cs ∧
      ∀ i, 0 <= i < n →
        filter (λ o, ix_addition o = true) (ixCalls i (sLog s)) = ixStream murmur n i cs ∧
        filter (λ o, rk_addition o = true) (rkCalls i (sLog s)) = rkStream murmur n only i cs.
  Proof.
    intros H [Hnet Hq]. destruct (oinv_reach murmur n only reqsFirst cap Hn progs s H) as (ls & cs & O).
    exists cs.
    assert (E : ls = filter nr <$> progs).
    { apply list_eq_same_length with (length progs); [by rewrite fmap_length|apply O|].
      intros k l l' Hk Hl Hl'.
      apply list_lookup_fmap_inv in Hl' as (prog & -> & Hp). destruct (oi_prog _ _ _ _ _ _ _ O k prog Hp) as (p & l1 & pend & P1 & _ & E & -> & P2).
      rewrite Hl in E. injection E as <-. apply (proj1 (Forall_lookup _ _) Hq) in P1 as [E1 E2]. rewrite E1 in P2. apply fmap_nil_inv in P2 as ->.
      by rewrite E2, !app_nil_r. }
    pose proof (oi_merge _ _ _ _ _ _ _ O) as HM. rewrite E in HM. split; [done|].
    assert (HF : Forall nr cs).
    { apply Forall_forall. intros c Hc. apply (interleaved_elem _ cs HM) in Hc as (l & Hl & Hc).
      apply elem_of_list_fmap in Hl as (prog & -> & _). by apply elem_of_list_filter in Hc as [? _]. }
    assert (H0 : ∀ c, ProofPipe.evsA murmur n only (hands c (sProcs s)) = []).
    { intros c. unfold hands. assert (HH : Forall (λ p, pActs p = []) (servers c (sProcs s))).
      { apply Forall_forall. intros p [_ Hp]%elem_of_list_filter. rewrite Forall_forall in Hq. by destruct (Hq p Hp). }
      clear -HH. induction HH as [|p l Hp HF IH]; [done|]. rewrite fmap_cons, mjoin_cons, Hp. exact IH. }
    intros i Hi. split.
    - rewrite <- ixG_filter, <- ix_sent by done. rewrite <- (oi_lane _ _ _ _ _ _ _ O _ (ixG i) (CIxAdd i)); [|done|].
      + unfold lane. rewrite Hnet, !H0. cbn. by rewrite app_nil_r.
      + intros [c|j [d f|id f]|j o]; try done. cbn. intros Hne. destruct (Z.eqb_spec j i); [by subst|done].
    - rewrite <- rkG_filter, <- rk_sent by done. rewrite <- (oi_lane _ _ _ _ _ _ _ O _ (rkG i) (CRkAdd i)); [|done|].
      + unfold lane. rewrite Hnet, !H0. cbn. by rewrite app_nil_r.
      + intros [c|j o|j [d f l|id]]; try done. cbn. intros Hne. destruct (Z.eqb_spec j i); [by subst|done].
  Qed.

  (** * Current versions *)
  Lemma version_current i cs id d : version murmur n i cs id = Some d ↔ DocId d = id ∧ ∃ f ct a, current murmur n i cs d f ct a.
  Proof.
    split.
    - induction cs as [|c cs IH] using rev_ind; [done|]. rewrite version_snoc. destruct (sent_to murmur n i id c) eqn:E.
      + destruct c as [e f ct a fo|id' fo|]; [|done..]. intros [= ->]. cbn in E. apply andb_true_iff in E as [<-%seqb_eq E%Z.eqb_eq].
        split; [done|]. exists f, ct, a, fo, cs, []. done.
      + intros [<- (f & ct & a & fo & b & af & -> & Hs & HF)]%IH. split; [done|]. exists f, ct, a, fo, b, (af ++ [c]).
        split; [by rewrite <- app_assoc|]. split; [done|]. apply Forall_app. split; [done|]. by constructor.
    - intros (<- & f & ct & a & fo & b & af & -> & Hs & HF). rewrite version_last; [done| |done]. cbn. by rewrite seqb_refl, Hs, Z.eqb_refl.
  Qed.

  Lemma last_rk i cs d f ct a ops : DocId d ≠ "0" → current murmur n i cs d f ct a → RORemove (DocId d) ∉ ops →
    filter (λ o, rk_addition o = true) ops = rkStream murmur n only i (filter nr cs) →
    last_call (DocId d) ops = Some (ROAdd (DocId d) f (if only then [] else [IStr ct; a])).
  Proof.
    intros H0 (fo & b & af & -> & Hs & HF) Hrm HE.
    assert (E : last_call (DocId d) ops = last_call (DocId d) (filter (λ o, rk_addition o = true) ops)).
    { clear HE. rewrite !last_call_on. unfold reverse. induction ops as [|o ops IH] using rev_ind; [done|].
      rewrite not_elem_of_app, not_elem_of_cons in Hrm. destruct Hrm as (Hr & Ho & _). specialize (IH Hr).
      rewrite filter_app, !rev_append_rev, !rev_app_distr, !app_nil_r in *. cbn [rev app].
      destruct o as [i' f' c'|i']; rewrite (filter_cons (λ o, rk_addition o = true)); cbn [rk_addition].
      - rewrite decide_True, filter_nil by done. cbn [rev app]. rewrite !filter_cons. case_decide; [done|exact IH].
      - rewrite decide_False, filter_nil by done. cbn [rev app]. rewrite filter_cons, decide_False; [exact IH|]. cbn. intros ->%seqb_eq. by apply Ho. }
    rewrite E, HE, filter_app, filter_cons, decide_True by done.
    rewrite (last_call_rk _ _ _ _ _ _ _ (DocId d)); [done|done|done| |].
    - cbn. by rewrite seqb_refl, Hs, Z.eqb_refl.
    - apply Forall_forall. intros c [_ Hc]%elem_of_list_filter. rewrite Forall_forall in HF. by apply HF.
  Qed.

  (** * A search over shards that have the current versions *)
  Section Cur.
    Context (sortDocs : list DocIndex → list DocIndex) (o : IndexerOpts) (shards : list Shard) (cs : list ecall).
    Context (ixops : Z → list op) (rkops : Z → list rop).
    Context (Hlen : zlen shards = n).
    Context (Hreach : ∀ (i : nat) sh, shards !! i = Some sh → reach sortDocs o (ixops (Z.of_nat i)) (shIx sh)).
    Context (Heng : ∀ (i : nat) sh, shards !! i = Some sh →
      Forall (engine_call only) (rkops (Z.of_nat i)) ∧ rrun (rkops (Z.of_nat i)) (RankerInit [only]) = Some (shRk sh)).
    Context (Hmap : ∀ (i : nat) sh, shards !! i = Some sh →
      ∃ M, shows (shIx sh) M ∧ ∀ id, M !! id = version murmur n (Z.of_nat i) cs id).
    Context (Hlast : ∀ (i : nat) sh d f ct a, shards !! i = Some sh → current murmur n (Z.of_nat i) cs d f ct a →
      last_call (DocId d) (rkops (Z.of_nat i)) = Some (ROAdd (DocId d) f (if only then [] else [IStr ct; a]))).
    Context (log2 : F → F) (req : SearchReq) (Hpr : plain_request o req).
    Notation score := (ScoringCriteria (rqOpts req)).

    Definition cpart (i : nat) (sh : Shard) (p : list rop * list IndexedDoc) : Prop :=
      shard_view log2 only req sh p ∧ p.1 = rkops (Z.of_nat i) ∧ NoDup (ixDocId <$> p.2) ∧
      ∀ id, id ∈ ixDocId <$> p.2 ↔ ∃ d f ct a, DocId d = id ∧ current murmur n (Z.of_nat i) cs d f ct a ∧ wanted req d.
    Lemma cpart_exists (i : nat) sh : shards !! i = Some sh → ∃ p, cpart i sh p.
    Proof.
      intros H. destruct Hpr as (_ & _ & _ & Hpl & Hne & Hloc).
      pose proof (Hreach i sh H) as HR. destruct (Hmap i sh H) as (M & HM & HMi).
      destruct (C16_lem _ _ _ _ log2 HR) as (M1 & S1 & H16).
      destruct (Lookup log2 (shIx sh) (rqTokens req) (rqLabels req) (rqDocIds req) false (Some (rqLogic req))) as [[docs m]|] eqn:EL.
      2:{ apply H16 in EL as (E1 & E2 & _); [|done]. by destruct (Hloc E1). }
      exists (rkops (Z.of_nat i), docs).
      destruct (C03_lem _ _ _ _ log2 HR) as (M2 & S2 & _ & H3). specialize (H3 _ _ _ _ _ _ Hpl EL).
      destruct (C04_lem _ _ _ _ log2 _ _ _ _ _ _ HR Hpl EL) as (_ & HN & _).
      split. { destruct (Heng i sh H) as [H1 H2]. split; [done|]. split; [done|]. by exists m. }
      split; [done|]. split; [done|]. intros id. cbn [snd]. rewrite H3. split.
      - intros Hm. eapply matches_shows in Hm; [|exact S2|exact HM]. destruct Hm as (_ & Hp & d & Hd & Hk).
        rewrite HMi in Hd. apply version_current in Hd as (<- & f & ct & a & Hc). exists d, f, ct, a. done.
      - intros (d & f & ct & a & <- & Hc & Hp & Hk). eapply matches_shows; [exact HM|exact S2|]. split; [done|]. split; [done|].
        exists d. split; [|done]. rewrite HMi. apply version_current. split; [done|]. by exists f, ct, a.
    Qed.
    Lemma cexpected i sh p d f ct a x : shards !! i = Some sh → cpart i sh p → current murmur n (Z.of_nat i) cs d f ct a → DocId d = ixDocId x →
      (score x f ≠ [] → ∃ h, expected only score (known only p.1 (ixDocId x)) x = Some h) ∧
      (∀ h, expected only score (known only p.1 (ixDocId x)) x = Some h → shows_call only score h d f ct a).
    Proof.
      intros Hi (_ & Hrk & _) Hc Ed. pose proof (Hlast i sh d f ct a Hi Hc) as HL. rewrite Ed in HL.
      unfold expected, known. rewrite Hrk, HL. split.
      - intros Hs. destruct only; cbn; (destruct (score x f) as [|z sc] eqn:Es; [done|]); by eexists.
      - intros h. destruct only; cbn; (destruct (score x f) as [|z sc] eqn:Es; [done|]); intros [= <-]; cbn;
          (split; [done|]); (split; [|done]); exists x; by rewrite Es.
    Qed.
    Lemma cur_view : scores_numbers log2 req shards →
      ∃ parts, Forall2 (shard_view log2 only req) shards parts ∧ no_nan (all_hits only score parts) ∧
        ∀ (i : nat) part, (hits only score <$> parts) !! i = Some part →
          NoDup (sdDocId <$> part) ∧
          (∀ h, h ∈ part → ∃ d f ct a, current murmur n (Z.of_nat i) cs d f ct a ∧ wanted req d ∧ shows_call only score h d f ct a) ∧
          (∀ d f ct a, current murmur n (Z.of_nat i) cs d f ct a → wanted req d → score_accepts score (DocId d) f →
             ∃ h, h ∈ part ∧ shows_call only score h d f ct a).
    Proof.
      intros Hnan. destruct (choice_list shards cpart cpart_exists) as (parts & Hl & HP).
      assert (HP' : ∀ i p, parts !! i = Some p → ∃ sh, shards !! i = Some sh ∧ cpart i sh p).
      { intros i p Hp. pose proof (lookup_lt_Some _ _ _ Hp) as Hlt. rewrite Hl in Hlt.
        apply lookup_lt_is_Some in Hlt as [sh Hs]. eauto. }
      assert (Hhit : ∀ i p h, parts !! i = Some p → h ∈ hits only score p →
        ∃ d f ct a, current murmur n (Z.of_nat i) cs d f ct a ∧ wanted req d ∧ shows_call only score h d f ct a).
      { intros i p h Hp (x & Hx & He)%elem_of_list_omap. destruct (HP' i p Hp) as (sh & Hs & Hok).
        assert (Hxi : ixDocId x ∈ ixDocId <$> p.2) by by apply elem_of_list_fmap_1.
        destruct Hok as (O1 & O2 & O3 & O4). apply O4 in Hxi as (d & f & ct & a & Ed & Hc & Hw).
        exists d, f, ct, a. split; [done|]. split; [done|].
        by apply (cexpected i sh p d f ct a x Hs (conj O1 (conj O2 (conj O3 O4))) Hc Ed). }
      assert (HV : Forall2 (shard_view log2 only req) shards parts).
      { apply Forall2_same_length_lookup_2; [done|]. intros i sh p Hs Hp. by destruct (HP i sh p Hs Hp). }
      exists parts. split; [done|]. split; [by eapply parts_numbers|].
      intros i part (p & -> & Hp)%list_lookup_fmap_inv. destruct (HP' i p Hp) as (sh & Hs & Hok). split; [|split].
        + destruct (hits_ids only req p) as (l & Hl' & ->). eapply sublist_NoDup; [apply Hok|]. by apply fmap_sublist.
        + intros h Hh. by eapply Hhit.
        + intros d f ct a Hc Hw Hacc.
          assert (Hxi : DocId d ∈ ixDocId <$> p.2). { apply Hok. by exists d, f, ct, a. }
          apply elem_of_list_fmap in Hxi as (x & Ed & Hx). specialize (Hacc x (eq_sym Ed)).
          destruct (cexpected i sh p d f ct a x Hs Hok Hc Ed) as [C1 C2]. destruct (C1 Hacc) as [h Hh].
          exists h. split; [|by apply C2]. apply elem_of_list_omap. by exists x.
    Qed.
    Lemma cur_search sortBy order : valid_sortBy sortBy → scores_numbers log2 req shards → all_arrive (length shards) order →
      ∃ full out, Search log2 sortBy req shards order = Some (mkResp (rqTokens req) false (zlen full) (Some out)) ∧
        answers_current murmur n only cs req full out.
    Proof.
      intros Hvb Hnan Ha. destruct (cur_view Hnan) as (parts & H1 & H2 & H3). destruct Hpr as (Hrk & Ht & (P1 & P2 & P3) & _).
      destruct (C32_lem log2 sortBy only req shards parts order Hvb H2 H1 Hrk Ht P1 P2 P3 Ha) as (full & out & F1 & F2 & F3 & F4 & F5).
      exists full, out. split; [done|]. split; [done|]. split; [done|]. split; [done|].
      exists (hits only score <$> parts). split; [|split; [done|exact H3]].
      unfold zlen in *. rewrite fmap_length. apply Forall2_length in H1. lia.
    Qed.
  End Cur.

  (** * One client that calls Flush between updates *)
  Theorem update_search sortDocs sortBy o s0 phases s shards log2 req order :
    valid_sort sortDocs → valid_sortBy sortBy → Init o = Some s0 →
    reachp 1 [program phases] s → quiescent s → Forall good_phase phases → removed_for_good (program phases) →
    engine_shards sortDocs s0 only n s shards →
    plain_request o req → scores_numbers log2 req shards → all_arrive (length shards) order →
    ∃ full out, Search log2 sortBy req shards order = Some (mkResp (rqTokens req) false (zlen full) (Some out)) ∧
      answers_current murmur n only (program phases) req full out.
  Proof.
    intros Hv Hvb HI Hr Hq HG Hrg Hsh Hpr Hnan Ha.
    assert (Hidx : ∀ (i : nat) sh, shards !! i = Some sh → 0 <= Z.of_nat i < n).
    { intros i sh H. apply lookup_lt_Some in H. destruct Hsh as [Hl _]. unfold zlen in Hl. lia. }
    destruct (order_lem _ _ Hr Hq) as (cs & HM & HO). cbn in HM. apply interleaved_one in HM as ->.
    eapply (cur_search sortDocs o shards (program phases) (λ i, ixCalls i (sLog s)) (λ i, rkCalls i (sLog s))); try done.
    - apply Hsh.
    - intros i sh H. split; [done|]. split; [|exists s0; split; [done|by apply (proj2 Hsh)]].
      destruct (quiescent_calls _ _ _ _ _ Hn 1 _ s (Z.of_nat i) Hr Hq (Hidx i sh H)) as [Hp _]. rewrite Hp.
      apply ixStream_good. cbn. rewrite app_nil_r. unfold program. apply Forall_join, Forall_fmap. eapply Forall_impl; [exact HG|].
      intros ph [Hph _]. cbn. apply Forall_app. split; [|by repeat constructor]. eapply Forall_impl; [exact Hph|].
      intros [d f ct a fo|id fo|]; cbn; [by intros [? _]|done|done].
    - intros i sh H. split; [|by apply (proj2 Hsh)]. eapply drained_engine; [exact Hn|done|done|by eapply Hidx].
    - intros i sh H.
      destruct (C39_lem _ _ _ _ _ Hn sortDocs o s0 1 phases s (Z.of_nat i) Hv HI HG Hr (quiescent_returned _ _ _ _ _ Hn _ _ _ Hr HG Hq) (Hidx i sh H))
        as (ix & M & Hx & HS & _ & _ & _ & HV).
      destruct (proj2 Hsh i sh H) as [Hx' _]. rewrite Hx in Hx'. injection Hx' as ->. by exists M.
    - intros i sh d f ct a H Hc. apply (last_rk (Z.of_nat i) (program phases)); [|done| |by apply HO; eapply Hidx].
      + destruct Hc as (fo & b & af & E & _). pose proof (program_ord phases HG) as Ho. rewrite E in Ho.
        apply Forall_app in Ho as [_ Ho]. by apply Forall_cons in Ho as [? _].
      + destruct (quiescent_calls _ _ _ _ _ Hn 1 _ s (Z.of_nat i) Hr Hq (Hidx i sh H)) as [_ Hp]. rewrite Hp.
        unfold rkStream. intros (l & Hl & (c & -> & Hc')%elem_of_list_fmap)%elem_of_list_join. cbn in Hc'. rewrite app_nil_r in Hc'.
        destruct c as [e fe cte ae foe|id fo|]; cbn in Hl.
        * destruct (seqb _ _); [by apply elem_of_nil in Hl|]. destruct (_ =? _); [by apply elem_of_list_singleton in Hl|by apply elem_of_nil in Hl].
        * destruct (seqb id "0"); [by apply elem_of_nil in Hl|]. apply elem_of_list_singleton in Hl. injection Hl as <-.
          destruct Hc as (fo' & b & af & E & _ & HF). rewrite E in Hc'. apply elem_of_app in Hc' as [Hb|Hb].
          -- apply elem_of_list_split in Hb as (b1 & b2 & ->). rewrite <- app_assoc in E. cbn in E.
             apply (Hrg _ _ _ _ E d f ct a fo'); [|done]. apply elem_of_app. right. by left.
          -- apply elem_of_cons in Hb as [[=]|Hb]. rewrite Forall_forall in HF. specialize (HF _ Hb). cbn in HF. by rewrite seqb_refl in HF.
        * by apply elem_of_nil in Hl.
  Qed.

  (** * Forced calls of any number of clients *)
  Lemma mapOf_adds ops id : (∀ f, OpRemove id f ∉ ops) → mapOf ops !! id = mapOf (filter (λ o, ix_addition o = true) ops) !! id.
  Proof.
    induction ops as [|o ops IH] using rev_ind; intros H; [done|].
    assert (IH' : mapOf ops !! id = mapOf (filter (λ o, ix_addition o = true) ops) !! id).
    { apply IH. intros f Hf. apply (H f), elem_of_app. by left. }
    rewrite filter_app, !mapOf_app, filter_cons, filter_nil. destruct o as [[d|] f|id' f]; cbn [ix_addition];
      [rewrite decide_True by done..|rewrite decide_False by done]; cbn [foldl mapStep].
    - destruct (decide (DocId d = id)) as [<-|Hne]; [by rewrite !lookup_insert|]. rewrite !lookup_insert_ne by done. exact IH'.
    - exact IH'.
    - rewrite lookup_delete_ne; [exact IH'|]. intros ->. apply (H f), elem_of_app. right. by left.
  Qed.
  Lemma mapOf_only ops id d : mapOf ops !! id = Some d → DocId d = id ∧ ∃ f, OpAdd (Some d) f ∈ ops.
  Proof.
    induction ops as [|o ops IH] using rev_ind; [done|].
    assert (IH' : mapOf ops !! id = Some d → DocId d = id ∧ ∃ f, OpAdd (Some d) f ∈ ops ++ [o]).
    { intros [H1 [f Hf]]%IH. split; [done|]. exists f. apply elem_of_app. by left. }
    rewrite mapOf_app. destruct o as [[e|] f|id' f]; cbn.
    - destruct (decide (DocId e = id)) as [<-|Hne].
      + rewrite lookup_insert. intros [= ->]. split; [done|]. exists f. apply elem_of_app. right. by left.
      + rewrite lookup_insert_ne by done. exact IH'.
    - exact IH'.
    - destruct (decide (id' = id)) as [->|Hne]; [by rewrite lookup_delete|]. rewrite lookup_delete_ne by done. exact IH'.
  Qed.

  Theorem forced_search sortDocs sortBy o s0 progs s shards log2 req order :
    valid_sort sortDocs → valid_sortBy sortBy → Init o = Some s0 →
    reachp 1 progs s → quiescent s → Forall good_call (mjoin progs) → Forall forced_call (mjoin progs) → removes_others (mjoin progs) →
    engine_shards sortDocs s0 only n s shards →
    plain_request o req → scores_numbers log2 req shards → all_arrive (length shards) order →
    ∃ cs full out, interleaved (filter nr <$> progs) cs ∧
      Search log2 sortBy req shards order = Some (mkResp (rqTokens req) false (zlen full) (Some out)) ∧
      answers_current murmur n only cs req full out.
  Proof.
    intros Hv Hvb HI Hr Hq HG HFo Hro Hsh Hpr Hnan Ha.
    assert (Hidx : ∀ (i : nat) sh, shards !! i = Some sh → 0 <= Z.of_nat i < n).
    { intros i sh H. apply lookup_lt_Some in H. destruct Hsh as [Hl _]. unfold zlen in Hl. lia. }
    destruct (order_lem _ _ Hr Hq) as (cs & HM & HO).
    assert (Hin : ∀ c, c ∈ cs → c ∈ mjoin progs ∧ not_removal c = true).
    { intros c Hc. apply (interleaved_elem _ _ HM) in Hc as (l & (prog & -> & Hp)%elem_of_list_fmap & [Hc1 Hc2]%elem_of_list_filter).
      split; [|done]. apply elem_of_list_join. by exists prog. }
    assert (Hnr : Forall nr cs). { apply Forall_forall. intros c Hc. by apply Hin. }
    assert (Hfc : Forall forced_call cs). { apply Forall_forall. intros c Hc. rewrite Forall_forall in HFo. apply HFo. by apply Hin. }
    assert (Hgo : ∀ (i : nat) sh, shards !! i = Some sh → Forall good_op (ixCalls (Z.of_nat i) (sLog s)) ∧ Forall forced (ixCalls (Z.of_nat i) (sLog s))).
    { intros i sh H. destruct (quiescent_calls _ _ _ _ _ Hn 1 _ s (Z.of_nat i) Hr Hq (Hidx i sh H)) as [Hp _]. rewrite !Hp.
      split; [by apply ixStream_good|by apply ixStream_forced]. }
    assert (HS : ∃ full out, Search log2 sortBy req shards order = Some (mkResp (rqTokens req) false (zlen full) (Some out)) ∧
      answers_current murmur n only cs req full out).
    2:{ destruct HS as (full & out & H1 & H2). by exists cs, full, out. }
    assert (Hrem : ∀ id f i, 0 <= i < n → OpRemove id f ∈ ixCalls i (sLog s) ∨ RORemove id ∈ rkCalls i (sLog s) →
      ∃ fo, ERemove id fo ∈ mjoin progs).
    { intros id f i Hi H. destruct (quiescent_calls _ _ _ _ _ Hn 1 _ s i Hr Hq Hi) as [Hp1 Hp2]. rewrite Hp1, Hp2 in H.
      unfold ixStream, rkStream in H. rewrite !elem_of_list_join in H.
      destruct H as [(l & Hl & (c & -> & Hc)%elem_of_list_fmap)|(l & Hl & (c & -> & Hc)%elem_of_list_fmap)];
        destruct c as [e fe cte ae foe|id' fo|]; cbn in Hl.
      - destruct (seqb _ _); [destruct foe; [by apply elem_of_list_singleton in Hl|by apply elem_of_nil in Hl]|].
        destruct (_ =? _); [by apply elem_of_list_singleton in Hl|]. destruct foe; [by apply elem_of_list_singleton in Hl|by apply elem_of_nil in Hl].
      - apply elem_of_list_singleton in Hl. injection Hl as -> ->. eauto.
      - by apply elem_of_list_singleton in Hl.
      - destruct (seqb _ _); [by apply elem_of_nil in Hl|]. destruct (_ =? _); [by apply elem_of_list_singleton in Hl|by apply elem_of_nil in Hl].
      - destruct (seqb id' "0"); [by apply elem_of_nil in Hl|]. apply elem_of_list_singleton in Hl. injection Hl as ->. eauto.
      - by apply elem_of_nil in Hl. }
    eapply (cur_search sortDocs o shards cs (λ i, ixCalls i (sLog s)) (λ i, rkCalls i (sLog s))); try done.
    - apply Hsh.
    - intros i sh H. split; [done|]. split; [by eapply Hgo|]. exists s0. split; [done|]. by apply (proj2 Hsh).
    - intros i sh H. split; [|by apply (proj2 Hsh)]. eapply drained_engine; [exact Hn|done|done|by eapply Hidx].
    - intros i sh H. destruct (Hgo i sh H) as [G1 G2].
      destruct (forced_is_map sortDocs o s0 _ Hv HI G1 G2) as (ix & Hx & HSh & _).
      destruct (proj2 Hsh i sh H) as [Hx' _]. rewrite Hx in Hx'. injection Hx' as ->. eexists. split; [exact HSh|].
      intros id. destruct (decide (Exists (λ c, call_id c = Some id ∧ not_removal c = false) (mjoin progs))) as [Hex|Hex].
      + apply Exists_exists in Hex as (c & Hc & E1 & E2). destruct c as [| id' fo|]; [done| |done]. injection E1 as ->.
        transitivity (@None DocIndex); [|symmetry].
        * destruct (mapOf (ixCalls (Z.of_nat i) (sLog s)) !! id) as [d|] eqn:Ed; [exfalso|done].
          apply mapOf_only in Ed as [Ed [f Hf]].
          destruct (quiescent_calls _ _ _ _ _ Hn 1 _ s (Z.of_nat i) Hr Hq (Hidx i sh H)) as [Hp1 _]. rewrite Hp1 in Hf.
          apply ixStream_adds in Hf as (fl & ct & a & Hf & _). by apply (Hro _ _ _ _ _ _ _ Hc Hf).
        * destruct (version murmur n (Z.of_nat i) cs id) as [d|] eqn:Ed; [exfalso|done].
          apply version_current in Ed as (Ed & f & ct & a & fo' & b & af & E & _).
          assert (Hd : EIndex d f ct a fo' ∈ mjoin progs). { apply Hin. rewrite E. apply elem_of_app. right. by left. }
          by apply (Hro _ _ _ _ _ _ _ Hc Hd).
      + rewrite mapOf_adds.
        * destruct (HO (Z.of_nat i) (Hidx i sh H)) as [-> _]. by apply mapOf_version.
        * intros f Hf. destruct (Hrem id f (Z.of_nat i) (Hidx i sh H) (or_introl Hf)) as [fo Hc]. apply Hex, Exists_exists.
          exists (ERemove id fo). done.
    - intros i sh d f ct a H Hc.
      assert (Hd : ∃ fo', EIndex d f ct a fo' ∈ mjoin progs).
      { destruct Hc as (fo' & b & af & E & _). exists fo'. apply Hin. rewrite E. apply elem_of_app. right. by left. }
      destruct Hd as [fo' Hd]. apply (last_rk (Z.of_nat i) cs); [|done| |].
      + rewrite Forall_forall in HFo. by destruct (HFo _ Hd).
      + intros Hx. destruct (Hrem (DocId d) true (Z.of_nat i) (Hidx i sh H) (or_intror Hx)) as [fo Hrm]. by apply (Hro _ _ _ _ _ _ _ Hrm Hd).
      + rewrite (filter_all not_removal) by done. apply HO. by eapply Hidx.
  Qed.
End Update.
