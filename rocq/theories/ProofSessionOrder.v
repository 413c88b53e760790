(** Proofs for C122: the order of searches by BM25 while a session on existing files is
    running. *)
From Coq Require Import Reals Floats.SpecFloat.
From Verif Require Import ModelSession ModelEngine ModelFlight ModelScoring SpecIndexer SpecSearch SpecRank SpecRoute SpecPipe SpecEngine SpecFlight SpecStore
  SpecEnd SpecLife SpecWhole SpecSession SpecDuring SpecSessionDuring SpecDeadline SpecSegment SpecLogic SpecBM25 SpecFits SpecScored SpecAccuracy SpecShorter SpecRescored
  SpecGrowing SpecGrowingSession SpecGrowingOrder SpecSessionOrder
  ProofRoute ProofPipe ProofSegEnd ProofWhole ProofSession ProofSessionThms ProofEnd ProofFits ProofDuring ProofMoments ProofSessionDuring ProofDeadline ProofScored ProofNumbers ProofGrowing
  ProofGrowingSession ProofGrowingOrder.

Section SessionOrder.
  Context (murmur : string → Z) (n : Z) (only reqsFirst : bool) (cap : chan → nat) (Hn : 1 <= n < 2^32).
  Context (accepts : string → string → bool) (encode : DocData → option string) (nS : Z) (HnS : 1 <= nS < 2^32) (reqsFirst2 : bool).
  Context (iter : kv → list (string * string)) (Hiter : valid_iter iter) (decode : string → DocData * bool).
  Context (X : Ext) (stop : gset string) (o : SegOpts) (HX : valid_range X).
  Notation wstep := (wholeStep murmur n only reqsFirst cap accepts encode nS reqsFirst2).
  Notation sreachp := (session_reach murmur n only reqsFirst cap accepts encode nS reqsFirst2).
  Context (sortDocs : list DocIndex → list DocIndex) (io : IndexerOpts) (s0 : Indexer) (nseg : nat).
  Context (recs : list (list ecall)) (progs : list (list wcall)) (dbs : Z → kv).
  Context (Hv : valid_sort sortDocs) (HI : Init io = Some s0).
  Context (Hpl : placed murmur nS dbs) (Hz : SpecLife.no_zero nS dbs) (Hrecs : recoverProgs iter decode X stop o nS dbs = Some recs).
  Context (Hmade : made_of X stop o (mjoin progs)) (Hnew : new_ids murmur nS dbs (mjoin progs)).
  Notation csx := (mjoin ((pipeProg <$> progs) ++ recs)).
  Notation there := (stored_or_given murmur nS decode dbs (mjoin progs)).
  Notation single := (one_source murmur nS dbs (mjoin progs)).
  Notation csx_nodup := (csx_nodup murmur nS HnS iter Hiter decode X stop o HX recs progs dbs Hpl Hz Hrecs Hnew).
  Notation csx_good := (csx_good murmur nS HnS iter Hiter decode X stop o HX recs progs dbs Hpl Hz Hrecs Hmade Hnew).
  Notation to_there := (call_there murmur nS HnS iter Hiter decode X stop o HX recs progs dbs Hpl Hz Hrecs Hmade).
  Notation there_call := (there_call murmur nS HnS iter Hiter decode X stop o HX recs progs dbs Hpl Hz Hrecs Hmade).
  Notation ever_documents := (ever_documents murmur n nS HnS iter Hiter decode X stop o HX recs progs dbs Hpl Hz Hrecs Hmade Hnew).

  Lemma ranked_session ity p ws t1 t2 req out : ranked_during ity p murmur n csx ws t1 t2 req out →
    ranked_meanwhile ity p murmur n X stop o there ws t1 t2 req out.
  Proof.
    intros (D & HD & Hsc & Hord & Hsf & Hbb). exists (λ i, shard_docs murmur n i csx), D. split; [|split; [|split]].
    - intros i Hi. split; [apply ever_documents|by apply HD].
    - intros h Hh. destruct (Hsc h Hh) as (v & y & E & A & (d & f & ct & a & fo & kws & Hc & Hid & Hd & Hk & ->) & C).
      destruct (to_there _ _ _ _ _ Hc) as (x & Hx & Hseg & -> & -> & ->). rewrite Hid in *. eexists v, _. split; [done|]. split; [done|].
      split; [|exact C]. by exists x, d, kws.
    - intros i j h1 h2 Hij H1 H2. destruct (Hord i j h1 h2 Hij H1 H2) as (y1 & y2 & Y1 & Y2 & HR). exists y1, y2.
      assert (HE : ∀ h y, exact_among ity p murmur n csx D (rqTokens req) h y → exact_there ity p murmur n X stop o there D (rqTokens req) h y).
      { intros h y (d & f & ct & a & fo & kws & Hc & Hid & Hd & Hk & ->). destruct (to_there _ _ _ _ _ Hc) as (x & Hx & Hseg & -> & -> & ->).
        rewrite Hid in *. by exists x, d, kws. }
      split; [by apply HE|]. split; [by apply HE|done].
    - intros i j h1 h2 d1 d2 doc1 doc2 H1 H2 T1 T2 S1 S2 Esh Hnl.
      destruct (there_call _ _ _ T1 S1) as (I1 & fo1 & C1). destruct (there_call _ _ _ T2 S2) as (I2 & fo2 & C2).
      assert (Hne : neighbours murmur n csx doc1 doc2). { exists (ddFields d1), (ddContent d1), (ddAttri d1), fo1, (ddFields d2), (ddContent d2), (ddAttri d2), fo2. by rewrite I1, I2. }
      destruct (Hsc h1 (elem_of_list_lookup_2 _ _ _ H1)) as (v1 & _ & E1 & _). destruct (Hsc h2 (elem_of_list_lookup_2 _ _ _ H2)) as (v2 & _ & E2 & _).
      exists v1, v2. split; [done|]. split; [done|]. split.
      + intros Hso. destruct (Hsf doc1 doc2 i j h1 h2 Hne Hso Hnl H1 H2 (eq_sym I1) (eq_sym I2)) as (w1 & w2 & F1 & F2 & HR & HQ).
        rewrite E1 in F1. rewrite E2 in F2. injection F1 as <-. injection F2 as <-. done.
      + intros Hso. destruct (Hbb doc1 doc2 h1 h2 Hne Hso Hnl (elem_of_list_lookup_2 _ _ _ H1) (elem_of_list_lookup_2 _ _ _ H2) (eq_sym I1) (eq_sym I2)) as (w1 & w2 & F1 & F2 & HR).
        rewrite E1 in F1. rewrite E2 in F2. injection F1 as <-. injection F2 as <-. done.
  Qed.
  Lemma scored_session log2 ws t1 t2 req full : scored_during log2 io murmur n only csx ws t1 t2 req full →
    scored_meanwhile log2 io murmur n only X stop o there ws t1 t2 req full.
  Proof.
    intros S i Hi. destruct (S i Hi) as (t & w & sh & Ht & Hw & Hsh & Htot & HS). exists t, w, sh, (shard_docs murmur n (Z.of_nat i) csx).
    do 3 (split; [done|]). split; [apply ever_documents|]. cbn zeta in *. split; [done|].
    intros h d doc Hh Hd Hseg Hs. destruct (there_call _ _ _ Hd Hseg) as (E & fo & Hc). eapply HS; [done|exact Hc|done|by rewrite E].
  Qed.
  Theorem order_session log2 sortBy ccap clients tl tr shards ls fs ss ans req t0 p : valid_sortBy sortBy →
    frun log2 sortBy (Z.to_nat n) ccap ls (fInit (Z.to_nat n) clients tl tr shards) = Some fs →
    written_in (sreachp nseg recs progs) wstep sortDocs s0 only n (fWorlds fs) ss →
    ans ∈ fAnswers fs → fReqs fs !! faSearch ans = Some (req, t0) → timed_request io req → ¬ with_logic req →
    ScoringCriteria (rqOpts req) = RankByBM25 → zlen (rqTokens req) <= 2 ^ 20 →
    IndexType io = LocsIndex ∨ IndexType io = FrequenciesIndex → BM25Parameters io = Some p → modest p → accurate_log2 log2 →
    modest_additions (IndexType io) murmur n (pipeProg (mjoin progs) ++ mjoin recs) →
    ∃ full out late, faResp ans = mkResp (rqTokens req) late (zlen full) (Some out) ∧ page_of req full out ∧
      heard_from (Z.to_nat n) req (heardOf (faGot ans)) late ∧
      answers_in_time only X stop o there single (fWorlds fs) t0 (faEnd ans) req (heardOf (faGot ans)) full ∧
      scored_meanwhile log2 io murmur n only X stop o there (fWorlds fs) t0 (faEnd ans) req full ∧
      ranked_meanwhile (IndexType io) p murmur n X stop o there (fWorlds fs) t0 (faEnd ans) req out.
  Proof.
    intros Hvb Hf HW Ha Hq Hpr Hnl Hs Ht Hity Hpo Hp Hlog Hm. rewrite <- calls_split in Hm.
    destruct (written_session _ _ _ _ _ _ _ _ _ _ _ _ _ _ _ _ HW) as [ps HWl]. apply (written_rest murmur n only reqsFirst cap) in HWl.
    destruct (order_mo murmur n Hn only log2 Hlog io p Hpo Hp Hity _ csx_nodup Hm req Hs Ht _ _ sortBy ccap clients tl tr shards ls fs ps ans t0
      (at_rest murmur n only reqsFirst cap Hn sortDocs io s0 nseg _ Hv HI (Hgood _ csx_good))
      (growing_rest murmur n only reqsFirst cap Hn sortDocs io s0 nseg _ Hv HI csx_good csx_nodup) Hvb Hf HWl Ha Hq Hpr Hnl)
      as (full & out & late & R & P & H & A & S & O).
    exists full, out, late. do 3 (split; [done|]). split; [by eapply heard_session|]. split; [by apply scored_session|by apply ranked_session].
  Qed.
End SessionOrder.
