(** Proofs about the scores of searches while documents are being added. *)
From Verif Require Import ModelPipe ModelEngine ModelFlight SpecIndexer SpecSearch SpecTotal SpecRank SpecRoute SpecPipe SpecEngine SpecFlight SpecEnd SpecLogic SpecFits SpecProx SpecBM25 SpecDuring SpecDeadline SpecScored SpecRescored SpecGrowing
  ProofTable ProofIndexer ProofCache ProofHistory ProofIxThms ProofIxMap ProofIxMore ProofSearchThms ProofTotal ProofRanker ProofRoute ProofPipe ProofFlush ProofFlushThms ProofEngine ProofFlightSafe ProofLogicThms ProofFits ProofEnd ProofMoments ProofDuring ProofFloat ProofMag ProofBM25 ProofScored ProofRescored.

(** * Where the entries of an answer come from *)
Section Traces.
  Context (murmur : string → Z) (n : Z) (only : bool) (o : IndexerOpts) (cs : list ecall).
  Context {P : Type} (shard_in : P → nat → Shard → Prop) (grows : P → P → Prop).
  Context (M : moments murmur n only o cs shard_in grows).
  Notation written_as := (written_as n shard_in grows).

  (** The entries [found] stem from one lookup. *)
  Definition traced (log2 : F → F) (ws : list (list Shard)) (req : SearchReq) (t1 t2 i : nat) (found : list ScoredDoc) : Prop :=
    ∃ t sh docs num, (t1 <= t <= t2)%nat ∧ seen ws i t t sh ∧
      Lookup log2 (shIx sh) (rqTokens req) (rqLabels req) (rqDocIds req) false (Some (rqLogic req)) = Some (docs, num) ∧
      ∀ h, h ∈ found → ∃ x u sh', x ∈ docs ∧ seen ws i u u sh' ∧ judged (rqOpts req) (x, sh') = Some h.

  Section Reply.
    Context (ws : list (list Shard)) (ps : list P) (HW : written_as ws ps).
    Context (log2 : F → F) (sortBy : (ScoredDoc → ScoredDoc → bool) → list ScoredDoc → list ScoredDoc).
    Context (req : SearchReq) (t1 t2 : nat) (Hvb : valid_sortBy sortBy) (Hpr : timed_request o req).
    Context (Ht2 : (t2 < length ws)%nat) (Hnan : Forall (scores_numbers log2 req) ws).
    Notation found_ok := (found_ok murmur n only cs ws req t1 t2).

    Lemma reply_traced i rp : answered_between log2 sortBy ws i req t1 t2 rp →
      ∃ found, found_ok i found ∧ traced log2 ws req t1 t2 i found ∧ rpNum rp = zlen found ∧
        docsOf rp = cut (MaxOutputs (rqOpts req)) (OutputOffset (rqOpts req)) (sortScored sortBy (ReverseOrder (rqOpts req)) found).
    Proof.
      intros (t & sh & docs & num & Ht & Hs & HL & Hrp). pose proof Hpr as ([Hco Hol] & _). rewrite Hco in HL, Hrp. rewrite Hol in Hrp.
      destruct docs as [|d docs].
      - exists []. split; [by eapply (found_nil murmur n only o cs shard_in grows M ws ps HW)|]. split.
        { exists t, sh, [], num. do 3 (split; [done|]). by intros h ?%elem_of_nil. }
        subst rp. split; [done|]. rewrite sortScored_nil by done.
        unfold cut. destruct (_ =? 0); [done|by rewrite take_nil].
      - destruct Hrp as (judges & page & Ed & (ts & _ & HF) & Hz & ->). exists (omap (judged (rqOpts req)) judges).
        assert (Hj : ∀ x sh', (x, sh') ∈ judges → ∃ u, (t <= u <= t2)%nat ∧ seen ws i u u sh').
        { intros x sh' Hx. apply elem_of_list_lookup in Hx as [k Hk]. destruct (Forall2_lookup_l _ _ _ _ _ HF Hk) as (u & _ & Hu). eauto. }
        split; [|split; [|split; [done|by eapply shard_page in Hz]]].
        + eapply (found_judged murmur n only o cs shard_in grows M ws ps HW); [done..|exact Hs|exact HL|exact Ed|exact Hj].
        + exists t, sh, (d :: docs), num. do 3 (split; [done|]). intros h ([x sh'] & Hx & Hh)%elem_of_list_omap.
          destruct (Hj x sh' Hx) as (u & _ & Hu). exists x, u, sh'. split; [|done]. rewrite Ed. change x with ((x, sh').1). by apply elem_of_list_fmap_1.
    Qed.
    Definition tpart (x : nat * Reply * list ScoredDoc) : Prop :=
      part murmur n only cs ws sortBy req t1 t2 x ∧ traced log2 ws req t1 t2 x.1.1 x.2.
    Lemma tparts_of got : (∀ i rp, Some (i, rp) ∈ got → answered_between log2 sortBy ws i req t1 t2 rp) →
      ∃ xs, omap id got = (λ x, (x.1.1, x.1.2)) <$> xs ∧ Forall tpart xs.
    Proof.
      induction got as [|[[i rp]|] got IH]; intros H; [by exists []|..].
      - destruct IH as (xs & E & HF); [intros; apply H; by right|].
        destruct (reply_traced i rp) as (found & Hf & Ht & Hr); [apply H; by left|]. exists ((i, rp, found) :: xs). split; [cbn; by f_equal|]. by constructor.
      - destruct IH as (xs & E & HF); [intros; apply H; by right|]. by exists xs.
    Qed.
  End Reply.

  Theorem traced_mo log2 sortBy ccap clients tl tr shards ls fs ps ans req t0 :
    valid_sortBy sortBy →
    frun log2 sortBy (Z.to_nat n) ccap ls (fInit (Z.to_nat n) clients tl tr shards) = Some fs →
    written_as (fWorlds fs) ps →
    ans ∈ fAnswers fs → fReqs fs !! faSearch ans = Some (req, t0) →
    timed_request o req → Forall (scores_numbers log2 req) (fWorlds fs) →
    ∃ full out late parts, faResp ans = mkResp (rqTokens req) late (zlen full) (Some out) ∧ page_of req full out ∧
      heard_from (Z.to_nat n) req (heardOf (faGot ans)) late ∧
      answers_heard only cs (fWorlds fs) t0 (faEnd ans) req (heardOf (faGot ans)) full ∧
      full ≡ₚ mjoin parts.*2 ∧ parts.*1 = heardOf (faGot ans) ∧ (t0 <= faEnd ans < length (fWorlds fs))%nat ∧
      Forall (λ p : nat * list ScoredDoc, found_ok murmur n only cs (fWorlds fs) req t0 (faEnd ans) p.1 p.2 ∧
        traced log2 (fWorlds fs) req t0 (faEnd ans) p.1 p.2) parts.
  Proof.
    intros Hvb Hf HW Ha Hrq Hpr Hnan.
    destruct (replies_lem _ _ _ _ _ _ _ _ _ _ _ Hf Ha) as (req' & t' & R1 & R2 & R3 & R4 & R5 & R6 & R7 & R8).
    rewrite Hrq in R1. injection R1 as <- <-.
    assert (Hlt : (faEnd ans < length (fWorlds fs))%nat).
    { assert (fWorlds fs ≠ []); [by eapply worlds_some; [exact Hf|]|]. destruct (fWorlds fs); [done|unfold moment in R2; cbn in *; lia]. }
    pose proof Hpr as ([Hco Hor] & (P1 & P2 & P3) & _).
    destruct (tparts_of (fWorlds fs) ps HW log2 sortBy req t0 (faEnd ans) Hvb Hpr Hlt Hnan _ R8) as (xs & Eg & HTP).
    assert (HP : Forall (part murmur n only cs (fWorlds fs) sortBy req t0 (faEnd ans)) xs).
    { eapply Forall_impl; [exact HTP|]. by intros x [? _]. }
    destruct (heard_omap (faGot ans)) as (Eh & Ei & El). rewrite Eg in Eh, Ei. rewrite <- list_fmap_compose in Eh, Ei. cbn in Eh, Ei.
    set (arrived := (λ x : nat * Reply * list ScoredDoc, x.1.2) <$> xs). change (_ <$> xs) with arrived in Eh.
    set (late := negb (forallb (λ e : option Reply, if e then true else false) (heard (faGot ans)))) in *.
    assert (Hd : docsOf <$> arrived = (λ l, cut (MaxOutputs (rqOpts req)) (OutputOffset (rqOpts req))
       (sortScored sortBy (ReverseOrder (rqOpts req)) l)) <$> xs.*2).
    { unfold arrived. clear -HP. induction HP as [|x xs (_ & _ & Hx) _ IH]; [done|]. cbn. cbn in IH. by rewrite IH, Hx. }
    assert (Hs : sumNum arrived = zlen (mjoin xs.*2)).
    { unfold arrived. clear -HP. induction HP as [|x xs (_ & Hx & _) _ IH]; [done|]. rewrite !fmap_cons, mjoin_cons, zlen_app, <- IH, <- Hx. done. }
    assert (Hnn : no_nan (mjoin xs.*2)).
    { apply Forall_forall. intros h (l & Hh & (x & -> & Hx)%elem_of_list_fmap)%elem_of_list_join. rewrite Forall_forall in HP.
      destruct (HP x Hx) as [(HH & _) _]. by apply HH. }
    destruct (merged_found sortBy req xs.*2 arrived Hvb Hnn P1 P2) as (full & F1 & F2 & F3 & F4); [by rewrite Hd|].
    assert (Hlate : rqTimeout req <= 0 → late = false).
    { intros Hto. apply El. destruct (R7 Hto) as [_ R72]. rewrite R72, seq_length. by rewrite R4. }
    exists full, (page (OutputOffset (rqOpts req)) (MaxOutputs (rqOpts req)) (sortScored sortBy (ReverseOrder (rqOpts req)) (mjoin (docsOf <$> arrived)))), late,
      ((λ x, (x.1.1, x.2)) <$> xs).
    split; [|split; [|split; [|split; [|split; [|split; [|split]]]]]].
    - replace (zlen full) with (zlen (mjoin xs.*2)) by (unfold zlen; by rewrite F1). rewrite <-Hs.
      unfold Ranks in R3. destruct (Z.leb_spec (rqTimeout req) 0) as [Hto|Hto].
      + rewrite Eh, NotTimeOut_eq, Hco in R3. rewrite finish_page in R3 by done. injection R3 as <-. by rewrite Hlate.
      + rewrite TimeOut_eq, Eh, NotTimeOut_eq, Hco in R3. rewrite finish_page in R3 by done. by injection R3 as <-.
    - split; [done|]. split; [done|]. by rewrite F1.
    - split; [done|]. split; [done|]. split; [by rewrite El, R4|done].
    - rewrite Ei. rewrite Ei in R5. by eapply parts_full.
    - rewrite <- list_fmap_compose. exact F1.
    - rewrite <- list_fmap_compose. by rewrite Ei.
    - unfold moment in *. lia.
    - apply Forall_fmap. eapply Forall_impl; [exact HTP|]. intros x [[Hx _] Ht]. split; [exact Hx|exact Ht].
  Qed.
End Traces.

(** Documents with one call each *)
Section Once.
  Context (murmur : string → Z) (n : Z) (cs : list ecall) (Hnd : NoDup (omap call_id cs)).
  Notation ever i := (shard_docs murmur n (Z.of_nat i) cs).
  Lemma nodup_once d f ct a fo : EIndex d f ct a fo ∈ cs → only_call cs (DocId d) (EIndex d f ct a fo).
  Proof. intros Hc. by apply nodup_only. Qed.
  Lemma ever_once i d : d ∈ ever i → ∃ f ct a fo, only_call cs (DocId d) (EIndex d f ct a fo) ∧ shard_for murmur n (DocId d) ct = Z.of_nat i.
    Proof. intros (f & ct & a & fo & Hc & _ & Hs)%shard_docs_elem. exists f, ct, a, fo. split; [by apply nodup_once|done]. Qed.
  Lemma ever_inj i d d' : d ∈ ever i → d' ∈ ever i → DocId d = DocId d' → d = d'.
    Proof.
      intros (f & ct & a & fo & Hc & _)%ever_once (f' & ct' & a' & fo' & Hc' & _)%ever_once E.
      assert (EE : EIndex d' f' ct' a' fo' = EIndex d f ct a fo); [|by injection EE].
      eapply only_same; [exact Hc| |cbn; by rewrite E].
      assert (H : EIndex d' f' ct' a' fo' ∈ filter (λ c, call_id c = Some (DocId d')) cs) by (rewrite Hc'; by left).
      by apply elem_of_list_filter in H as [_ ?].
    Qed.
  Lemma now_NoDup i s : NoDup (DocId <$> held s (ever i)).
    Proof. eapply sublist_NoDup; [by apply (shard_docs_NoDup murmur n (Z.of_nat i) cs)|]. apply fmap_sublist, filter_sublist. Qed.
End Once.

(** What the shards of the states of [P] tell of the documents they have *)
Record growing_mo (murmur : string → Z) (n : Z) (only : bool) (o : IndexerOpts) (cs : list ecall)
    {P : Type} (shard_in : P → nat → Shard → Prop) : Prop := {
  gr_total p i sh : shard_in p i sh →
    total_now (totalTokenLen (shIx sh)) (shard_docs murmur n (Z.of_nat i) cs) (held (shIx sh) (shard_docs murmur n (Z.of_nat i) cs));
  gr_told p i sh log2 req docs num x : shard_in p i sh → ¬ with_logic req → (IndexType o = LocsIndex → rqTokens req ≠ []) →
    Lookup log2 (shIx sh) (rqTokens req) (rqLabels req) (rqDocIds req) false (Some (rqLogic req)) = Some (docs, num) → x ∈ docs →
    let now := held (shIx sh) (shard_docs murmur n (Z.of_nat i) cs) in
    ∃ d, d ∈ now ∧ ixDocId x = DocId d ∧ describes log2 o (totalTokenLen (shIx sh)) now (rqTokens req) d x;
  gr_judged p i sh opts x h d f ct a fo : shard_in p i sh → judged opts (x, sh) = Some h → EIndex d f ct a fo ∈ cs → ixDocId x = DocId d →
    ScoringCriteria opts x f ≠ [] ∧ h = entry_for only (ScoringCriteria opts) x f ct a }.

Section Told.
  Context (murmur : string → Z) (n : Z) (only : bool) (o : IndexerOpts) (cs : list ecall) (Hn : 1 <= n < 2 ^ 32).
  Context {P : Type} (shard_in : P → nat → Shard → Prop) (grows : P → P → Prop).
  Context (Hmo : moments murmur n only o cs shard_in grows) (HT : growing_mo murmur n only o cs shard_in).
  Context (Hnd : NoDup (omap call_id cs)).
  Notation ever i := (shard_docs murmur n (Z.of_nat i) cs).

  Theorem scored_mo log2 sortBy ccap clients tl tr shards ls fs ps ans req t0 :
    valid_sortBy sortBy →
    frun log2 sortBy (Z.to_nat n) ccap ls (fInit (Z.to_nat n) clients tl tr shards) = Some fs →
    written_as n shard_in grows (fWorlds fs) ps →
    ans ∈ fAnswers fs → fReqs fs !! faSearch ans = Some (req, t0) →
    timed_request o req → ¬ with_logic req → Forall (scores_numbers log2 req) (fWorlds fs) →
    ∃ full out late, faResp ans = mkResp (rqTokens req) late (zlen full) (Some out) ∧ page_of req full out ∧
      heard_from (Z.to_nat n) req (heardOf (faGot ans)) late ∧
      answers_heard only cs (fWorlds fs) t0 (faEnd ans) req (heardOf (faGot ans)) full ∧
      scored_during log2 o murmur n only cs (fWorlds fs) t0 (faEnd ans) req full.
  Proof.
    intros Hvb Hf HW Ha Hrq Hpr Hnl Hnan.
    destruct (traced_mo _ _ _ _ _ _ _ Hmo
      log2 sortBy ccap clients tl tr shards ls fs ps ans req t0 Hvb Hf HW Ha Hrq Hpr Hnan)
      as (full & out & late & parts & R1 & R2 & R3 & R4 & Hfull & Hidx & Hend & HF).
    exists full, out, late. do 4 (split; [done|]).
    assert (Hloc : IndexType o = LocsIndex → rqTokens req ≠ []).
    { destruct Hpr as (_ & _ & [(_ & _ & ?)|[? _]]); done. }
    rewrite Forall_forall in HF. intros i Hi.
    assert (Hown : ∀ h d f ct a fo, h ∈ full → EIndex d f ct a fo ∈ cs → DocId d = sdDocId h → shard_for murmur n (DocId d) ct = Z.of_nat i →
      ∃ l, (i, l) ∈ parts ∧ h ∈ l).
    { intros h d f ct a fo Hh Hc Ed Hs. rewrite Hfull in Hh. apply elem_of_list_join in Hh as (l & Hh & ([j l'] & -> & Hj)%elem_of_list_fmap).
      destruct (HF _ Hj) as [(_ & _ & _ & _ & HB) _]. destruct (HB d f ct a fo (nodup_once _ Hnd _ _ _ _ _ Hc)) as (_ & E & _); [rewrite Ed; by apply elem_of_list_fmap_1|].
      rewrite shardOf_mod in E by done. unfold shard_for in Hs. rewrite Hs in E. apply Nat2Z.inj in E. cbn in E. subst j. by exists l'. }
    assert (Hat : ∀ t sh, seen (fWorlds fs) i t t sh → ∃ p w, fWorlds fs !! t = Some w ∧ w !! i = Some sh ∧ shard_in p i sh).
    { intros t sh Hs. destruct (at_seen n shard_in _ _ _ HW _ _ _ Hs) as (p & _ & HP). destruct Hs as (t' & w & Ht & Hw & Hsh).
      assert (t' = t) as -> by lia. by exists p, w. }
    destruct (decide (i ∈ parts.*1)) as [([j l] & -> & Hin)%elem_of_list_fmap|Hno].
    - destruct (HF _ Hin) as (_ & t & sh & docs & num & Ht & Hs & HL & Hjd). cbn [fst snd] in *.
      destruct (Hat t sh Hs) as (p & w & Hw & Hsh & HP). exists t, w, sh. do 3 (split; [done|]). cbn zeta. split; [by eapply (gr_total _ _ _ _ _ _ HT)|].
      intros h d f ct a fo Hh Hc Ed Es. destruct (Hown h d f ct a fo Hh Hc Ed Es) as (l' & Hl' & Hhl).
      assert (l' = l) as ->.
      { apply elem_of_list_lookup in Hin as [a1 Ha1], Hl' as [a2 Ha2]. assert (a1 = a2) as ->; [|congruence].
        destruct R3 as [HND _]. rewrite <- Hidx in HND. eapply NoDup_lookup; [exact HND|rewrite list_lookup_fmap, Ha1; done|by rewrite list_lookup_fmap, Ha2]. }
      destruct (Hjd h Hhl) as (x & u & sh' & Hx & Hu & Hj). destruct (Hat u sh' Hu) as (q & _ & _ & _ & HQ).
      destruct (mo_judged _ _ _ _ _ _ _ Hmo _ _ _ _ _ _ HQ Hj) as (Exh & _).
      destruct (gr_told _ _ _ _ _ _ HT p j sh log2 req docs num x HP Hnl Hloc HL Hx) as (d' & Hd' & Ex' & Htold).
      assert (d' = d) as ->.
      { eapply (ever_inj murmur n cs Hnd j); [by apply elem_of_list_filter in Hd' as [_ ?]|apply shard_docs_elem; exists f, ct, a, fo; by split_and!|congruence]. }
      split; [done|]. exists x. split; [done|]. eapply (gr_judged _ _ _ _ _ _ HT q j sh'); [done|done|done|congruence].
    - destruct (at_moment n shard_in _ _ _ HW t0 i) as [sh Hs]; [lia|lia|]. destruct (Hat t0 sh Hs) as (p & w & Hw & Hsh & HP).
      exists t0, w, sh. split; [lia|]. do 2 (split; [done|]). cbn zeta. split; [by eapply (gr_total _ _ _ _ _ _ HT)|].
      intros h d f ct a fo Hh Hc Ed Es. destruct (Hown h d f ct a fo Hh Hc Ed Es) as (l' & Hl' & _). destruct Hno.
      change i with ((i, l').1). by apply elem_of_list_fmap_1.
  Qed.

  (** With lengths and frequencies as documents have them, the scores are numbers. *)
  Lemma numbers_mo log2 req ws ps : usual_log2 log2 → usual_calls o murmur n cs → sane_scoring (ScoringCriteria (rqOpts req)) →
    timed_request o req → ¬ with_logic req →
    written_as n shard_in grows ws ps →
    Forall (scores_numbers log2 req) ws.
  Proof.
    intros Hlog (Hp & Hlen & Hd & zl & Hz & Hsum) Hsc Hpr Hnl HW.
    assert (Hloc : IndexType o = LocsIndex → rqTokens req ≠ []).
    { destruct Hpr as (_ & _ & [(_ & _ & ?)|[? _]]); done. }
    apply Forall_lookup. intros t w Hw sh docs num x f [i Hi]%elem_of_list_lookup HL Hx.
    destruct (at_seen n shard_in _ ws ps HW t i sh) as (p & _ & HP); [exists t, w; split; [lia|done]|].
    destruct (gr_told _ _ _ _ _ _ HT p i sh log2 req docs num x HP Hnl Hloc HL Hx) as (d & Hin & _ & Htold). apply Hsc.
    pose proof (mo_range _ _ _ _ _ _ _ Hmo _ _ _ HP) as Hi'.
    assert (Hzl : ∀ e, e ∈ ever i → TokenLen e = f32_of_Z (zl e) ∧ 0 <= zl e).
    { intros e (f' & ct' & a' & fo' & He & _)%shard_docs_elem. by eapply Hz. }
    pose proof (gr_total _ _ _ _ _ _ HT p i sh HP zl Hzl (Hsum _ Hi')) as Et.
    assert (Hsub : held (shIx sh) (ever i) ⊆+ ever i) by apply sublist_submseteq, filter_sublist.
    destruct (sum_submseteq zl _ _ Hsub) as [S1 S2]; [intros e He; by apply Hzl|].
    destruct (of_Z_nn (foldr Z.add 0 (zl <$> held (shIx sh) (ever i)))) as [N1 N2]; [specialize (Hsum _ Hi'); lia|]. rewrite <- Et in N1, N2.
    pose proof (shard_docs_length murmur n (Z.of_nat i) cs). pose proof (submseteq_length _ _ Hsub).
    assert (Hin' : d ∈ ever i) by by eapply elem_of_submseteq.
    apply (described_score log2 o (totalTokenLen (shIx sh)) (held (shIx sh) (ever i)) (rqTokens req) d x Hp Hlog Hin); [|unfold zlen in *; lia|done..].
    apply shard_docs_elem in Hin' as (f' & ct' & a' & fo' & He & _). by eapply Hd.
  Qed.
End Told.

(** * The shards while documents are being added *)
Section Growing.
  Context (murmur : string → Z) (n : Z) (only reqsFirst : bool) (cap : chan → nat) (Hn : 1 <= n < 2 ^ 32).
  Context (sortDocs : list DocIndex → list DocIndex) (o : IndexerOpts) (s0 : Indexer) (nseg : nat) (progs : list (list ecall)).
  Context (Hv : valid_sort sortDocs) (HI : Init o = Some s0).
  Context (Hg : Forall (λ c, good_call c ∧ call_id c ≠ Some "0") (mjoin progs)) (Hnd : NoDup (omap call_id (mjoin progs))).
  Notation cs := (mjoin progs).
  Notation shard_in := (shard_in murmur n only reqsFirst cap sortDocs s0 nseg progs).
  Notation ever i := (shard_docs murmur n (Z.of_nat i) cs).

  Lemma Hgood : Forall good_call cs.
  Proof. eapply Forall_impl; [exact Hg|]. by intros c [? _]. Qed.
  Lemma no_zero_id : "0" ∉ omap call_id cs.
  Proof. intros (c & Hc & E)%elem_of_list_omap. rewrite Forall_forall in Hg. by destruct (Hg c Hc) as [_ ?]. Qed.

  Section Shard.
    Context (p : pstate) (i : nat) (sh : Shard) (HP : shard_in p i sh).
    Notation ops := (ixCalls (Z.of_nat i) (sLog p)).
    Notation now := (held (shIx sh) (ever i)).
    Lemma grow_reach : reach sortDocs o ops (shIx sh).
    Proof. eapply in_reach; [exact Hn|exact Hv|exact HI|exact Hgood|exact HP]. Qed.
    Lemma added_ever d : added d ops → d ∈ ever i.
    Proof.
      intros [f Hf]. destruct HP as (P1 & P2 & _). destruct (log_ix _ _ _ _ _ Hn _ _ _ _ P1 P2) as [r Hr].
      assert (Hs : OpAdd (Some d) f ∈ ixStream murmur n (Z.of_nat i) cs) by (rewrite <- Hr; apply elem_of_app; by left).
      apply ixStream_adds in Hs as (fl & ct & a & Hc & _ & Hs). apply shard_docs_elem. exists fl, ct, a, f. split; [done|]. split; [done|].
      by rewrite <- shardOf_mod.
    Qed.
    Lemma grow_map M D : content (shIx sh) M D → (∀ id d, D !! id = Some d → DocId d = id ∧ added d ops) → D = M ∧ lists M now.
    Proof.
      intros (S1 & S2 & _ & S4) HA.
      assert (HDM : D = M).
      { apply map_eq. intros id. destruct (M !! id) as [d|] eqn:Ed; [by eapply lookup_weaken|].
        destruct (D !! id) as [d|] eqn:E; [|done]. destruct (HA _ _ E) as [Eid Had%added_ever].
        destruct (proj1 (S4 id)) as [Hh|Hh]; [by eexists|..].
        - apply (proj1 S1) in Hh as [? ?]. congruence.
        - destruct (ever_once murmur n cs Hnd i d Had) as (f & ct & a & fo & Hc & _). rewrite <- Eid in Hh.
          by destruct (not_removed _ _ _ _ _ Hn _ _ _ _ _ Hv HI Hgood _ _ _ _ _ _ _ _ HP Hc). }
      split; [done|]. subst D. split; [by apply now_NoDup|]. intros id d. unfold held. rewrite elem_of_list_filter. split.
      - intros Hd. destruct (HA _ _ Hd) as [<- Had%added_ever]. split; [|done]. split; [|done]. apply S1. by eexists.
      - intros [[Hh He] <-]. apply (proj1 S1) in Hh as [d' Hd']. destruct (HA _ _ Hd') as [E Had%added_ever].
        pose proof (ever_inj murmur n cs Hnd i d d' He Had (eq_sym E)) as <-. exact Hd'.
    Qed.
    Lemma grow_total : total_now (totalTokenLen (shIx sh)) (ever i) now.
    Proof.
      intros zl Hz Hs. pose proof grow_reach as HR.
      assert (Hbound : ∀ l, (∀ d, d ∈ l → 0 <= zl d) → ∀ d, d ∈ l → zl d <= foldr Z.add 0 (zl <$> l)).
      { clear. intros l Hl. assert (HH : 0 <= foldr Z.add 0 (zl <$> l) ∧ ∀ d, d ∈ l → zl d <= foldr Z.add 0 (zl <$> l)); [|by destruct HH].
        induction l as [|e l IH]; [split; [done|]; by intros d ?%elem_of_nil|].
        destruct IH as [I1 I2]; [intros d Hd; apply Hl; by right|]. rewrite fmap_cons. cbn [foldr].
        assert (0 <= zl e) by (apply Hl; by left). split; [lia|]. intros d [->|Hd]%elem_of_cons; [lia|]. specialize (I2 d Hd). lia. }
      destruct (C20_additions_lem sortDocs o zl _ (shIx sh) HR) as (M & D & HC & HD & ->).
      - intros d Hd%added_ever. destruct (Hz d Hd) as [E1 E2]. split; [done|].
        split; [done|]. eapply Z.le_lt_trans; [|exact Hs]. apply Hbound; [|done]. intros d' Hd'. by apply Hz.
      - destruct HP as (P1 & P2 & _). destruct (log_ix _ _ _ _ _ Hn _ _ _ _ P1 P2) as [r Hr].
        rewrite <- (added_len_stream murmur n Hn zl (Z.of_nat i) cs no_zero_id), <- (added_len_perm zl _ _ Hr) in Hs. clear Hbound.
        eapply Z.le_lt_trans; [|exact Hs]. apply added_len_prefix. intros d Hd. destruct (Hz d) as [_ ?]; [|done].
        destruct Hd as [f Hf]. rewrite Hr in Hf. apply ixStream_adds in Hf as (fl & ct & a & Hc & _ & Hs'). apply shard_docs_elem.
        exists fl, ct, a, f. split; [done|]. split; [done|]. by rewrite <- shardOf_mod.
      - destruct (grow_map M D HC) as [-> HL]; [intros id d Hd; split; by destruct (HD id d Hd)|].
        f_equal. rewrite (lists_map _ _ HL) at 1. apply sum_len_list, HL.
    Qed.

    Lemma grow_told log2 req docs num x : ¬ with_logic req → (IndexType o = LocsIndex → rqTokens req ≠ []) →
      Lookup log2 (shIx sh) (rqTokens req) (rqLabels req) (rqDocIds req) false (Some (rqLogic req)) = Some (docs, num) → x ∈ docs →
      ∃ d, d ∈ now ∧ ixDocId x = DocId d ∧ describes log2 o (totalTokenLen (shIx sh)) now (rqTokens req) d x.
    Proof.
      intros Hnl Hloc HL Hx. pose proof grow_reach as HR. rewrite lookup_plain in HL by done.
      destruct (reach_content_added _ _ _ _ HR) as (M & D & HC & HA & _ & HN & _).
      destruct (grow_map M D HC HA) as [-> HLs].
      destruct (search_thm _ _ _ _ log2 HR) as (M1 & S1 & A1 & HS).
      destruct (HS (rqTokens req) (rqLabels req) (rqDocIds req) None I)
        as (hits & Hso & Hh & [(L1 & L2 & _)|(_ & docs' & L1 & _ & Hids & Hf)]).
      { by destruct (Hloc L1). }
      rewrite L1 in HL. injection HL as -> _. destruct (Hf x Hx) as (d & kws & Hd & Hk & Hfo).
      assert (Ed : DocId d = ixDocId x) by by apply (proj1 (proj2 S1)).
      exists d. split; [|split; [done|]].
      - apply elem_of_list_filter. split; [|by eapply added_ever, A1]. rewrite Ed. apply S1. by eexists.
      - eapply fields_told; [|exact HC|exact HN|exact HLs|exact Hk|exact Hfo].
        by destruct (reach_inv _ _ _ _ HR) as (? & ? & _ & ? & _).
    Qed.

    Lemma grow_judged opts x h d f ct a fo : judged opts (x, sh) = Some h → EIndex d f ct a fo ∈ cs → ixDocId x = DocId d →
      ScoringCriteria opts x f ≠ [] ∧ h = entry_for only (ScoringCriteria opts) x f ct a.
    Proof.
      intros Hj Hc%(nodup_once cs Hnd) Ex.
      assert (HS : is_Some (rDocs (shRk sh) !! DocId d)). { unfold judged in Hj. rewrite <- Ex. by destruct (rDocs (shRk sh) !! ixDocId x). }
      pose proof HP as (P1 & P2 & _ & P4). apply (knows_call _ _ _ _ _ Hn _ _ _ _ _ _ _ _ _ _ _ _ HP Hc) in HS.
      rewrite judged_entry, (entry_expected only _ _ _ _ (in_engine _ _ _ _ _ Hn _ _ p _ P1 P2) P4) in Hj.
      unfold expected, known in Hj. rewrite Ex, (last_one _ _ _ HS) in Hj. unfold entry_for.
      destruct only; cbn in Hj; (destruct (ScoringCriteria opts x f) as [|z sc] eqn:Es; [done|]); injection Hj as <-; rewrite ?Ex; done.
    Qed.
  End Shard.

  Lemma growing_rest : growing_mo murmur n only o cs shard_in.
  Proof.
    split.
    - intros p i sh HP. by eapply grow_total.
    - intros p i sh log2 req docs num x HP. by eapply grow_told.
    - intros p i sh opts x h d f ct a fo HP. by eapply grow_judged.
  Qed.

  Theorem growing_written log2 sortBy ccap clients tl tr shards ls fs ps ans req t0 :
    valid_sortBy sortBy →
    frun log2 sortBy (Z.to_nat n) ccap ls (fInit (Z.to_nat n) clients tl tr shards) = Some fs →
    written_log murmur n only reqsFirst cap sortDocs s0 nseg progs (fWorlds fs) ps →
    ans ∈ fAnswers fs → fReqs fs !! faSearch ans = Some (req, t0) →
    timed_request o req → ¬ with_logic req → Forall (scores_numbers log2 req) (fWorlds fs) →
    ∃ full out late, faResp ans = mkResp (rqTokens req) late (zlen full) (Some out) ∧ page_of req full out ∧
      heard_from (Z.to_nat n) req (heardOf (faGot ans)) late ∧
      answers_heard only cs (fWorlds fs) t0 (faEnd ans) req (heardOf (faGot ans)) full ∧
      scored_during log2 o murmur n only cs (fWorlds fs) t0 (faEnd ans) req full.
  Proof.
    intros Hvb Hf HW%(written_rest murmur n only reqsFirst cap).
    exact (scored_mo murmur n only o cs Hn _ _ (at_rest murmur n only reqsFirst cap Hn sortDocs o s0 nseg progs Hv HI Hgood) growing_rest Hnd
      log2 sortBy ccap clients tl tr shards ls fs ps ans req t0 Hvb Hf HW).
  Qed.
  Theorem growing_log log2 sortBy ccap clients tl tr shards ls fs ps ans req t0 :
    valid_sortBy sortBy →
    frun log2 sortBy (Z.to_nat n) ccap ls (fInit (Z.to_nat n) clients tl tr shards) = Some fs →
    written_by (pipeStep murmur n only reqsFirst cap) (pipeInit n nseg progs) sortDocs s0 only n (fWorlds fs) ps →
    ans ∈ fAnswers fs → fReqs fs !! faSearch ans = Some (req, t0) →
    timed_request o req → ¬ with_logic req → Forall (scores_numbers log2 req) (fWorlds fs) →
    ∃ full out late, faResp ans = mkResp (rqTokens req) late (zlen full) (Some out) ∧ page_of req full out ∧
      heard_from (Z.to_nat n) req (heardOf (faGot ans)) late ∧
      answers_heard only cs (fWorlds fs) t0 (faEnd ans) req (heardOf (faGot ans)) full ∧
      scored_during log2 o murmur n only cs (fWorlds fs) t0 (faEnd ans) req full.
  Proof. intros Hvb Hf HW%(written_by_log murmur n only reqsFirst cap). exact (growing_written log2 sortBy ccap clients tl tr shards ls fs ps ans req t0 Hvb Hf HW). Qed.

  (** With lengths and frequencies as documents have them, the scores are numbers. *)
  Lemma growing_numbers log2 req ws ps : usual_log2 log2 → usual_calls o murmur n cs → sane_scoring (ScoringCriteria (rqOpts req)) →
    timed_request o req → ¬ with_logic req →
    written_by (pipeStep murmur n only reqsFirst cap) (pipeInit n nseg progs) sortDocs s0 only n ws ps →
    Forall (scores_numbers log2 req) ws.
  Proof.
    intros Hlog Hu Hsc Hpr Hnl HW%(written_by_log murmur n only reqsFirst cap)%(written_rest murmur n only reqsFirst cap).
    exact (numbers_mo murmur n only o cs _ _ (at_rest murmur n only reqsFirst cap Hn sortDocs o s0 nseg progs Hv HI Hgood) growing_rest
      log2 req ws ps Hlog Hu Hsc Hpr Hnl HW).
  Qed.
End Growing.
