(** Proofs that the scores of the default criterion are numbers, at all times. *)
From Coq Require Import Floats.SpecFloat.
From Verif Require Import ModelSession ModelEngine ModelFlight ModelScoring SpecIndexer SpecSearch SpecLogic SpecTotal SpecRank SpecRoute SpecPipe SpecSegment SpecEngine SpecFlight SpecStore SpecEnd SpecFits SpecBM25 SpecScored SpecDuring SpecLife SpecWhole SpecSession SpecSessionDuring SpecUpdate SpecRevise SpecDeadline
  ProofHistory ProofIxThms ProofLogicThms ProofFits ProofEnd ProofRoute ProofPipe ProofFlushThms ProofFloat ProofMag ProofBM25 ProofDuring ProofScored ProofSegment ProofSegThms ProofWhole ProofSession ProofSessionDuring ProofRevise ProofDeadline.

Lemma default_sane : sane_scoring RankByBM25.
Proof. intros x f [H _]. by constructor; [|constructor]. Qed.

(** * The documents of a stream of calls *)
Definition docsAdded (ops : list op) : list DocIndex := omap (λ o, match o with OpAdd (Some d) _ => Some d | _ => None end) ops.
Lemma docsAdded_elem d ops : d ∈ docsAdded ops ↔ added d ops.
Proof.
  unfold docsAdded, added. rewrite elem_of_list_omap. split.
  - intros ([[d'|] f|] & Ho & E); [|done|done]. injection E as ->. by exists f.
  - intros [f Hf]. by exists (OpAdd (Some d) f).
Qed.
Lemma added_len_docs zl ops : added_len zl ops = foldr Z.add 0 (zl <$> docsAdded ops).
Proof. unfold added_len, docsAdded. induction ops as [|[[d|] f|id f] ops IH]; [done|..]; cbn [omap list_omap foldr fmap list_fmap]; [f_equal|..]; exact IH. Qed.
Lemma docsAdded_app l1 l2 : docsAdded (l1 ++ l2) = docsAdded l1 ++ docsAdded l2.
Proof. apply omap_app. Qed.
Lemma docsAdded_stream murmur n i cs : docsAdded (ixStream murmur n i cs) `sublist_of` indexed cs.
Proof.
  induction cs as [|c cs IH]; [constructor|]. unfold ixStream in *. rewrite fmap_cons, mjoin_cons, docsAdded_app.
  destruct c as [d f ct a fo|id fo|]; cbn [indexed omap list_omap ixMsgs]; [|done|done].
  destruct (seqb _ _); [destruct fo; by constructor|]. destruct (_ =? _); [by apply sublist_skip|]. destruct fo; by constructor.
Qed.
Lemma sum_sub (zl : DocIndex → Z) l k : l ⊆+ k → (∀ d, d ∈ k → 0 <= zl d) → 0 <= foldr Z.add 0 (zl <$> l) <= foldr Z.add 0 (zl <$> k).
Proof.
  intros [r Hr]%submseteq_Permutation Hk.
  assert (E : foldr Z.add 0 (zl <$> k) = foldr Z.add 0 (zl <$> l ++ r)). { apply (foldr_permutation_proper (=) Z.add 0); [intros; lia|by rewrite Hr]. }
  rewrite E, fmap_app, foldr_app.
  assert (Hl : ∀ d, d ∈ l → 0 <= zl d) by (intros d Hd; apply Hk; rewrite Hr; apply elem_of_app; by left).
  assert (Hr' : ∀ d, d ∈ r → 0 <= zl d) by (intros d Hd; apply Hk; rewrite Hr; apply elem_of_app; by right).
  assert (HS : ∀ l, (∀ d, d ∈ l → 0 <= zl d) → 0 <= foldr Z.add 0 (zl <$> l)).
  { clear. induction l as [|d l IH]; intros H; [done|]. cbn. assert (0 <= zl d) by (apply H; by left).
    assert (0 <= foldr Z.add 0 (zl <$> l)); [|lia]. apply IH. intros e He. apply H. by right. }
  assert (HA : ∀ l x, foldr Z.add x (zl <$> l) = foldr Z.add 0 (zl <$> l) + x).
  { clear. induction l as [|d l IH]; intros x; [done|]. cbn. rewrite IH. lia. }
  rewrite (HA l (foldr Z.add 0 (zl <$> r))). pose proof (HS _ Hl). pose proof (HS _ Hr'). lia.
Qed.
Lemma NoDup_sub_length {A} (l k : list A) : NoDup l → (∀ x, x ∈ l → x ∈ k) → zlen l <= zlen k.
Proof. intros HN H. unfold zlen. apply Nat2Z.inj_le. apply submseteq_length, NoDup_submseteq; done. Qed.

(** * One shard *)
Lemma shard_numbers sortDocs o ops s log2 req zl N : reach sortDocs o ops s → answerable o req →
  (∀ p, BM25Parameters o = Some p → usual p) → usual_log2 log2 → Forall usual_doc (docsAdded ops) →
  Forall (λ d, TokenLen d = f32_of_Z (zl d) ∧ 0 <= zl d) (docsAdded ops) → added_len zl ops < 2 ^ 24 →
  zlen (docsAdded ops) <= N → N < 2 ^ 63 →
  ∀ docs num, Lookup log2 s (rqTokens req) (rqLabels req) (rqDocIds req) false (Some (rqLogic req)) = Some (docs, num) →
    Forall (λ x, a_score (BM25 x)) docs.
Proof.
  intros HR Hreq Hp Hlog Hu Hz Hs HN HN2 docs num HL. rewrite Forall_forall in Hu, Hz.
  destruct (lookup_fits _ _ _ _ log2 req HR Hreq) as (M & D & docs' & HC & HA & _ & HL' & _ & _ & _ & _ & HE).
  assert (HDl : ∀ L : list string, NoDup L → (∀ id, id ∈ L → is_Some (D !! id)) → zlen L < 2 ^ 63).
  { intros L HNL HLD. assert (zlen L <= zlen (DocId <$> docsAdded ops)).
    { apply NoDup_sub_length; [done|]. intros id [d Hd]%HLD. destruct (HA _ _ Hd) as [<- Had]. apply elem_of_list_fmap_1. by apply docsAdded_elem. }
    unfold zlen in *. rewrite fmap_length in *. lia. }
  destruct (with_logic_dec req) as [Hl|Hl].
  { rewrite HL' in HL. injection HL as <- _. apply Forall_forall. intros x Hx. rewrite (HE Hl x Hx). by vm_compute. }
  rewrite lookup_plain in HL by done. destruct HC as (S1 & S2 & S3 & S4).
  assert (Ho : initOptions s = optsInit o) by by destruct (reach_inv _ _ _ _ HR) as (? & ? & _ & ? & _).
  eapply (scores_small_lem sortDocs o ops s log2 zl HR); [..|exact HL]; [|done| | |done| | |done].
  - rewrite Ho. exact Hp.
  - intros d Hd. by apply Hu, docsAdded_elem.
  - intros d Hd. apply docsAdded_elem in Hd. destruct (Hz d Hd) as [H1 H2]. split; [done|]. split; [done|].
    rewrite added_len_docs in Hs. destruct (sum_sub zl [d] (docsAdded ops)) as [_ Hle].
    + by apply singleton_submseteq_l.
    + intros e He. by apply Hz.
    + cbn in Hle. lia.
  - destruct (numDocs_count _ _ _ _ HR) as (L & L1 & L2 & ->). apply HDl; [done|]. intros id Hid. apply S4. left. by apply L2.
  - intros k c (L & L1 & L2 & ->). apply HDl; [done|]. intros id Hid%L2. apply S3 in Hid as (d & Hd & _); by exists d.
Qed.

(** * The engine *)
Section Numbers.
  Context (murmur : string → Z) (n : Z) (only reqsFirst : bool) (cap : chan → nat) (Hn : 1 <= n < 2 ^ 32).
  Theorem numbers_lem sortDocs o s0 nseg progs s shards log2 req :
    valid_sort sortDocs → Init o = Some s0 → Forall good_call (mjoin progs) →
    pipe_reach murmur n only reqsFirst cap nseg progs s → engine_shards sortDocs s0 only n s shards →
    answerable o req → sane_scoring (ScoringCriteria (rqOpts req)) → usual_log2 log2 → usual_history o (mjoin progs) →
    scores_numbers log2 req shards.
  Proof.
    intros Hv HI Hg Hr Hsh Hreq Hsc Hlog (Hp & Hc & Hu & zl & Hz & Hs) sh docs num x f Hin HL Hx.
    apply elem_of_list_lookup in Hin as [i Hi]. destruct (proj2 Hsh i sh Hi) as [H1 H2].
    assert (Hb : 0 <= Z.of_nat i < n). { pose proof (lookup_lt_Some _ _ _ Hi). destruct Hsh as [Hl _]. unfold zlen in Hl. lia. }
    assert (HR : reach sortDocs o (ixCalls (Z.of_nat i) (sLog s)) (shIx sh)).
    { eapply in_reach; [exact Hn|exact Hv|exact HI|exact Hg|]. split; [exact Hr|]. split; [exact Hb|]. split; [exact H1|exact H2]. }
    destruct (log_ix murmur n only reqsFirst cap Hn nseg progs s (Z.of_nat i) Hr Hb) as [r Hpm].
    assert (HS : docsAdded (ixCalls (Z.of_nat i) (sLog s)) ⊆+ indexed (mjoin progs)).
    { transitivity (docsAdded (ixStream murmur n (Z.of_nat i) (mjoin progs))); [|by apply sublist_submseteq, docsAdded_stream].
      assert (E : docsAdded (ixCalls (Z.of_nat i) (sLog s)) ++ docsAdded r ≡ₚ docsAdded (ixStream murmur n (Z.of_nat i) (mjoin progs))).
      { rewrite <- docsAdded_app. unfold docsAdded. by rewrite Hpm. }
      rewrite <- E. by apply submseteq_inserts_r. }
    apply Hsc. assert (HF : Forall (λ x, a_score (BM25 x)) docs); [|rewrite Forall_forall in HF; by apply HF].
    rewrite Forall_forall in Hu, Hz.
    eapply (shard_numbers sortDocs o _ (shIx sh) log2 req zl (zlen (mjoin progs)) HR Hreq Hp Hlog); [| | | |done|exact HL].
    - apply Forall_forall. intros d Hd. apply Hu. by eapply elem_of_submseteq.
    - apply Forall_forall. intros d Hd. apply Hz. by eapply elem_of_submseteq.
    - rewrite added_len_docs. destruct (sum_sub zl _ _ HS) as [_ Hle]; [|lia]. intros d Hd. by apply Hz.
    - apply submseteq_length in HS. unfold zlen. assert ((length (indexed (mjoin progs)) <= length (mjoin progs))%nat); [|lia].
      unfold indexed. clear. induction (mjoin progs) as [|[] l IH]; cbn; lia.
  Qed.
  (** at all moments of a run *)
  Theorem numbers_during sortDocs o s0 nseg progs ws ps log2 req :
    valid_sort sortDocs → Init o = Some s0 → Forall good_call (mjoin progs) →
    written_by (pipeStep murmur n only reqsFirst cap) (pipeInit n nseg progs) sortDocs s0 only n ws ps →
    answerable o req → sane_scoring (ScoringCriteria (rqOpts req)) → usual_log2 log2 → usual_history o (mjoin progs) →
    Forall (scores_numbers log2 req) ws.
  Proof.
    intros Hv HI Hg HW Hreq Hsc Hlog Hu. apply Forall_lookup. intros t w Hw.
    apply written_by_log in HW as (W1 & _ & W3).
    destruct (Forall2_lookup_r _ _ _ _ _ W3 Hw) as (p & Hp & Hsh). by eapply numbers_lem; [..|exact (W1 t p Hp)|exact Hsh| | | |].
  Qed.
End Numbers.

(** * Sessions *)
Section Sessions.
  Context (murmur : string → Z) (n : Z) (only reqsFirst : bool) (cap : chan → nat) (Hn : 1 <= n < 2 ^ 32).
  Context (accepts : string → string → bool) (encode : DocData → option string) (nS : Z) (reqsFirst2 : bool).
  Notation sreachp := (session_reach murmur n only reqsFirst cap accepts encode nS reqsFirst2).
  Lemma good_swap (recs : list (list ecall)) progs : Forall good_call (mjoin recs ++ pipeProg (mjoin progs)) →
    Forall good_call (mjoin ((pipeProg <$> progs) ++ recs)).
  Proof. rewrite calls_split, !Forall_app. tauto. Qed.
  Lemma indexed_perm cs cs' : cs ≡ₚ cs' → indexed cs ≡ₚ indexed cs'.
  Proof. intros H. unfold indexed. by rewrite H. Qed.
  Lemma usual_perm o cs cs' : cs ≡ₚ cs' → usual_history o cs → usual_history o cs'.
  Proof.
    intros Hp (H1 & H2 & H3 & zl & H4 & H5). pose proof (indexed_perm _ _ Hp) as Hi. split; [done|].
    split; [unfold zlen in *; by rewrite <- Hp|]. split; [by rewrite <- Hi|]. exists zl. split; [by rewrite <- Hi|].
    rewrite <- (foldr_permutation_proper (=) Z.add 0 ltac:(intros; lia) (zl <$> indexed cs)); [done|by rewrite Hi].
  Qed.
  Theorem numbers_session sortDocs o s0 nseg recs progs s shards log2 req :
    valid_sort sortDocs → Init o = Some s0 → Forall good_call (mjoin recs ++ pipeProg (mjoin progs)) →
    sreachp nseg recs progs s → engine_shards sortDocs s0 only n (pipePart s) shards →
    answerable o req → sane_scoring (ScoringCriteria (rqOpts req)) → usual_log2 log2 →
    usual_history o (mjoin recs ++ pipeProg (mjoin progs)) → scores_numbers log2 req shards.
  Proof.
    intros Hv HI Hg Hr Hsh Hreq Hsc Hlog Hu.
    destruct (session_pipe murmur n only reqsFirst cap accepts encode nS reqsFirst2 nseg recs progs s Hr) as (q & Hq & _ & E & _).
    eapply (numbers_lem murmur n only reqsFirst cap Hn sortDocs o s0 nseg _ q); [done|done|by apply good_swap|exact Hq| |done|done|done|].
    - unfold engine_shards in *. rewrite E. exact Hsh.
    - eapply usual_perm; [|exact Hu]. rewrite calls_split. by rewrite Permutation_app_comm.
  Qed.
  Theorem numbers_session_during sortDocs o s0 nseg recs progs ws ss log2 req :
    valid_sort sortDocs → Init o = Some s0 → Forall good_call (mjoin recs ++ pipeProg (mjoin progs)) →
    written_in (sreachp nseg recs progs) (wholeStep murmur n only reqsFirst cap accepts encode nS reqsFirst2) sortDocs s0 only n ws ss →
    answerable o req → sane_scoring (ScoringCriteria (rqOpts req)) → usual_log2 log2 →
    usual_history o (mjoin recs ++ pipeProg (mjoin progs)) → Forall (scores_numbers log2 req) ws.
  Proof.
    intros Hv HI Hg (W1 & W2 & W3) Hreq Hsc Hlog Hu. apply Forall_lookup. intros t w Hw.
    destruct (Forall2_lookup_r _ _ _ _ _ W3 Hw) as (s & Hs & Hsh).
    assert (HR : ∀ t s, ss !! t = Some s → sreachp nseg recs progs s).
    { clear -W1 W2. intros t. induction t as [|t IH]; intros s Hs; [by apply W1|].
      assert (is_Some (ss !! t)) as [s' Hs']. { apply lookup_lt_is_Some. apply lookup_lt_Some in Hs. lia. }
      destruct (IH s' Hs') as (p & Hp & Hr & Hrt). exists p. split; [done|]. split; [done|]. etrans; [exact Hrt|]. by eapply W2. }
    eapply numbers_session; [done|done|exact Hg|exact (HR t s Hs)|exact Hsh|done..].
  Qed.
End Sessions.

(** * Documents that come from the segmenter *)
Lemma below_from k x : -100 <= k <= 127 → below k x → from_0_to k x.
Proof.
  intros Hk. unfold from_0_to, f_ltb, f_zero, SFltb, pow2. destruct x as [s|s| |s m e]; cbn [below]; [by destruct s|done|done|].
  intros (-> & Hc & Hl). rewrite fexp_eq in Hc. pose proof (Z.log2_nonneg (Zpos m)). split; [|split; [done|]].
  - cbn [valid_binary]. unfold bounded, canonical_mantissa. apply andb_true_iff. split.
    + rewrite digits_log2, fexp_eq. apply Zeq_is_eq_bool. lia.
    + apply Z.leb_le. change (128 - 24) with 104. lia.
  - cbn [SFcompare]. destruct (Z.compare_spec e (k - 23)) as [E|E|E]; [|done|lia]. 
    change (Pos.compare_cont Eq m (2 ^ 23)) with (m ?= 2 ^ 23)%positive.
    destruct (Pos.compare_spec m (2 ^ 23)) as [X|X|X]; [|done|]; exfalso.
    + assert (Z.log2 (Zpos m) = 23) by (rewrite X; done). lia.
    + assert (23 <= Z.log2 (Zpos m)); [|lia]. apply Z.log2_le_pow2; [done|]. change (2 ^ 23) with (Zpos (2 ^ 23)). lia.
Qed.
Lemma of_Z_from m : 0 <= m < 2 ^ 63 → from_0_to 64 (f32_of_Z m).
Proof.
  intros H. apply below_from; [lia|]. destruct (Z.eq_dec m 0) as [->|]; [done|]. apply of_Z_below. lia.
Qed.
Lemma from_mono k k' x : -100 <= k <= k' → k' <= 127 → from_0_to k x → from_0_to k' x.
Proof. intros H1 H2 H. apply below_from; [lia|]. eapply below_mono; [|by apply from_below]. lia. Qed.
Section Made.
  Context (X : Ext) (stop : gset string) (o : SegOpts).
  Lemma addPos_nonneg w st : 0 <= st.2 → 0 <= (addPos stop w st).2.
  Proof. unfold addPos. destruct (IsStopToken stop w); cbn; lia. Qed.
  Lemma moreLoop_nonneg rest : ∀ str st, 0 <= st.2 → 0 <= (moreLoop stop rest str st).2.
  Proof. induction rest as [|w rest IH]; intros str st H; [done|]. cbn. apply IH. by apply addPos_nonneg. Qed.
  Lemma splitLoop_nonneg left : ∀ l str st r, 0 <= st.2 → splitLoop stop o left l str st = Some r → 0 <= r.2.
  Proof.
    induction left as [|left IH]; intros l str st r H; cbn [splitLoop]; [by intros [= <-]|].
    destruct l as [|w rest]; [done|]. destruct (seqb w ""); [by apply IH|]. apply IH.
    destruct (Using o =? 6); [apply moreLoop_nonneg|]; by apply addPos_nonneg, addPos_nonneg.
  Qed.
  Lemma defaultTokens_nonneg c r : defaultTokens stop o c = Some r → 0 <= r.2.
  Proof.
    unfold defaultTokens. destruct (_ <? _); [|by intros [= <-]]. destruct (ForSplitData _ _ _ _) as [[m k]|] eqn:E; [|done].
    cbn. intros [= <-]. cbn. by eapply splitLoop_nonneg in E.
  Qed.
  Lemma textMap_nonneg d r : textMap X stop o d = Some r → 0 <= r.2.
  Proof.
    unfold textMap. destruct (seqb _ _); [by intros [= <-]|]. destruct (_ || _); [apply defaultTokens_nonneg|].
    destruct (_ || _); [intros [= <-]; apply zlen_nonneg|]. destruct (_ =? 2); [by intros [= <-]|]. cbn zeta.
    destruct (Using o =? 3).
    all: destruct (ForSplitData _ _ _ _) as [[m k]|] eqn:E; [|done]; cbn; intros [= <-]; cbn; eapply splitLoop_nonneg in E; [|done]; cbn in E.
    - pose proof (zlen_nonneg (modeSegment X (toLower X (ddContent d)))). lia.
    - lia.
  Qed.
  Theorem segmented_usual id d doc : valid_range X → segDoc X stop o id d = Some doc →
    ∃ m, 0 <= m ∧ TokenLen doc = f32_of_Z m ∧
      (m < 2 ^ 63 → (∀ kw, kw ∈ Keywords doc → zlen (Starts kw) < 2 ^ 63) → usual_doc doc).
  Proof.
    intros HX Hd. destruct (segDoc_len _ _ _ _ _ _ Hd) as (t & m & Hm & El).
    assert (H0 : 0 <= m).
    { rewrite makeTokensMap_eq in Hm. destruct (textMap X stop o d) as [[t' k]|] eqn:E; [|done].
      apply textMap_nonneg in E. cbn in E, Hm. pose proof (zlen_nonneg (userTokens o d)). pose proof (zlen_nonneg (PinYin X stop o (ddContent d))).
      destruct (PinYinOpt o); injection Hm as _ <-; lia. }
    exists m. split; [done|]. split; [done|]. intros Hlt Hk. split.
    - rewrite El. eapply from_mono; [|done|by apply of_Z_from]. lia.
    - apply Forall_forall. intros kw Hkw. specialize (Hk kw Hkw). split; [|done].
      destruct (segDoc_map X stop o HX _ _ _ Hd) as (t' & _ & _ & _ & H3 & _). rewrite (H3 kw Hkw). apply of_Z_from.
      pose proof (zlen_nonneg (Starts kw)). lia.
  Qed.
End Made.

(** * Searches with the default criterion *)
Lemma program_good phases : Forall good_phase phases → Forall good_call (mjoin [program phases]).
Proof.
  intros H. cbn. rewrite app_nil_r. unfold program. induction H as [|ph phs [Hp _] _ IH]; [constructor|].
  rewrite fmap_cons, mjoin_cons, !Forall_app. split; [|done]. split; [|by repeat constructor].
  eapply Forall_impl; [exact Hp|]. intros [] Hc; cbn in *; tauto.
Qed.
Section Default.
  Context (murmur : string → Z) (n : Z) (only reqsFirst : bool) (cap : chan → nat) (Hn : 1 <= n < 2 ^ 32).
  Theorem default_revised sortDocs sortBy o s0 nseg phases s shards log2 req order :
    valid_sort sortDocs → valid_sortBy sortBy → Init o = Some s0 →
    pipe_reach murmur n only reqsFirst cap nseg [program phases] s → returned 0 s → Forall good_phase phases →
    engine_shards sortDocs s0 only n s shards →
    open_request o req → ScoringCriteria (rqOpts req) = RankByBM25 → usual_log2 log2 → usual_history o (program phases) →
    all_arrive (length shards) order →
    ∃ full out, Search log2 sortBy req shards order = Some (mkResp (rqTokens req) false (zlen full) (Some out)) ∧
      answers_revised n only (called murmur n (program phases)) req (quiescent s) full out.
  Proof.
    intros Hv Hvb HI Hr Hret Hg Hsh Hq Hsc Hlog Hu Ho.
    eapply (revised_search murmur n only Hn reqsFirst cap); [done|done|exact HI|exact Hr|done|done|exact Hsh|done| |done].
    eapply (numbers_lem murmur n only reqsFirst cap Hn); [done|exact HI|by apply program_good|exact Hr|exact Hsh|by destruct Hq as (_ & _ & _ & ?)| |done|].
    - rewrite Hsc. exact default_sane.
    - cbn. by rewrite app_nil_r.
  Qed.
  Theorem default_timed sortDocs o s0 nseg progs log2 sortBy ccap clients tl tr shards ls fs ps ans req t0 :
    valid_sort sortDocs → Init o = Some s0 → Forall good_call (mjoin progs) →
    frun log2 sortBy (Z.to_nat n) ccap ls (fInit (Z.to_nat n) clients tl tr shards) = Some fs →
    written_by (pipeStep murmur n only reqsFirst cap) (pipeInit n nseg progs) sortDocs s0 only n (fWorlds fs) ps →
    valid_sortBy sortBy →
    ans ∈ fAnswers fs → fReqs fs !! faSearch ans = Some (req, t0) →
    timed_request o req → ScoringCriteria (rqOpts req) = RankByBM25 → usual_log2 log2 → usual_history o (mjoin progs) →
    ∃ full out late, faResp ans = mkResp (rqTokens req) late (zlen full) (Some out) ∧ page_of req full out ∧
      heard_from (Z.to_nat n) req (heardOf (faGot ans)) late ∧
      answers_heard only (mjoin progs) (fWorlds fs) t0 (faEnd ans) req (heardOf (faGot ans)) full.
  Proof.
    intros Hv HI Hg Hf HW Hvb Ha Hrq Hq Hsc Hlog Hu. pose proof HW as HW'. apply written_by_log in HW'.
    eapply (timed_heard murmur n only reqsFirst cap Hn); [done|exact HI|exact Hg|done|exact Hf|exact HW'|done|done|done|].
    eapply (numbers_during murmur n only reqsFirst cap Hn); [done|exact HI|exact Hg|exact HW|by destruct Hq as (_ & _ & ?)| |done|done].
    rewrite Hsc. exact default_sane.
  Qed.
End Default.
