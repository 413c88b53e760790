(** Searches with deadlines, and searches that ask the indexers only, beside writes. *)
From Verif Require Import ModelSession ModelEngine ModelFlight SpecIndexer SpecSearch SpecRank SpecRoute SpecPipe SpecEngine SpecFlight SpecStore
  SpecEnd SpecLife SpecWhole SpecSession SpecDuring SpecSessionDuring SpecDeadline SpecSegment
  ProofRoute ProofPipe ProofSegEnd ProofWhole ProofSession ProofSessionThms ProofEnd ProofDuring ProofSessionDuring.

(** * The engine without storage *)
Section Deadline.
  Context (murmur : string → Z) (n : Z) (only reqsFirst : bool) (cap : chan → nat) (Hn : 1 <= n < 2^32).
  Context (sortDocs : list DocIndex → list DocIndex) (o : IndexerOpts) (s0 : Indexer) (nseg : nat) (progs : list (list ecall)).
  Context (Hv : valid_sort sortDocs) (HI : Init o = Some s0) (Hg : Forall good_call (mjoin progs)).
  Notation cs := (mjoin progs).
  Notation wlog := (written_log murmur n only reqsFirst cap sortDocs s0 nseg progs).

  Notation rest := (at_rest murmur n only reqsFirst cap Hn sortDocs o s0 nseg progs Hv HI Hg).
  Notation to_rest := (written_rest murmur n only reqsFirst cap sortDocs s0 nseg progs).
  Context (log2 : F → F) (sortBy : (ScoredDoc → ScoredDoc → bool) → list ScoredDoc → list ScoredDoc).

  Lemma timed_heard ccap clients tl tr shards ls fs ps ans req t0 :
    valid_sortBy sortBy →
    frun log2 sortBy (Z.to_nat n) ccap ls (fInit (Z.to_nat n) clients tl tr shards) = Some fs →
    wlog (fWorlds fs) ps →
    ans ∈ fAnswers fs → fReqs fs !! faSearch ans = Some (req, t0) →
    timed_request o req → Forall (scores_numbers log2 req) (fWorlds fs) →
    ∃ full out late, faResp ans = mkResp (rqTokens req) late (zlen full) (Some out) ∧ page_of req full out ∧
      heard_from (Z.to_nat n) req (heardOf (faGot ans)) late ∧
      answers_heard only cs (fWorlds fs) t0 (faEnd ans) req (heardOf (faGot ans)) full.
  Proof. intros ?? HW%to_rest. by eapply (timed_heard_mo _ _ _ _ _ _ _ rest). Qed.
  Lemma index_heard ccap clients tl tr shards ls fs ps ans req t0 :
    frun log2 sortBy (Z.to_nat n) ccap ls (fInit (Z.to_nat n) clients tl tr shards) = Some fs →
    wlog (fWorlds fs) ps →
    ans ∈ fAnswers fs → fReqs fs !! faSearch ans = Some (req, t0) → index_request o req →
    ∃ ids late, tells_ids req ids late (faResp ans) ∧ heard_from (Z.to_nat n) req (heardOf (faGot ans)) late ∧
      lists_heard cs (fWorlds fs) t0 (faEnd ans) req (heardOf (faGot ans)) ids.
  Proof. intros ? HW%to_rest. by eapply (index_heard_mo _ _ _ _ _ _ _ rest). Qed.
  Lemma present_later ws ps t t' i d f ct a fo : wlog ws ps → (t <= t' < length ws)%nat →
    only_call cs (DocId d) (EIndex d f ct a fo) → present_in ws t i (DocId d) → present_in ws t' i (DocId d).
  Proof. intros  HW%to_rest. by eapply (present_later_mo _ _ _ _ _ _ _ rest). Qed.
  Lemma settled_later ws ps t t' i d f ct a fo : wlog ws ps → (t <= t' < length ws)%nat →
    only_call cs (DocId d) (EIndex d f ct a fo) → settled_in ws t i (DocId d) → settled_in ws t' i (DocId d).
  Proof. intros  HW%to_rest. by eapply (settled_later_mo _ _ _ _ _ _ _ rest). Qed.
  Lemma timed_later ccap clients tl tr shards ls fs ps a1 a2 req t1 t2 :
    valid_sortBy sortBy →
    frun log2 sortBy (Z.to_nat n) ccap ls (fInit (Z.to_nat n) clients tl tr shards) = Some fs →
    wlog (fWorlds fs) ps →
    a1 ∈ fAnswers fs → fReqs fs !! faSearch a1 = Some (req, t1) →
    a2 ∈ fAnswers fs → fReqs fs !! faSearch a2 = Some (req, t2) → (faEnd a1 <= t2)%nat →
    timed_request o req → Forall (scores_numbers log2 req) (fWorlds fs) → rsTimeout (faResp a2) = false →
    ∃ full1 full2 out1 out2 late1,
      faResp a1 = mkResp (rqTokens req) late1 (zlen full1) (Some out1) ∧ page_of req full1 out1 ∧
      heard_from (Z.to_nat n) req (heardOf (faGot a1)) late1 ∧ answers_heard only cs (fWorlds fs) t1 (faEnd a1) req (heardOf (faGot a1)) full1 ∧
      faResp a2 = mkResp (rqTokens req) false (zlen full2) (Some out2) ∧ page_of req full2 out2 ∧
      heard_from (Z.to_nat n) req (heardOf (faGot a2)) false ∧ answers_heard only cs (fWorlds fs) t2 (faEnd a2) req (heardOf (faGot a2)) full2 ∧
      ∀ d f ct a fo, only_call cs (DocId d) (EIndex d f ct a fo) → score_accepts (ScoringCriteria (rqOpts req)) (DocId d) f →
        DocId d ∈ sdDocId <$> full1 → DocId d ∈ sdDocId <$> full2.
  Proof. intros ?? HW%to_rest. by eapply (timed_later_mo _ _ _ _ _ _ _ rest). Qed.
  Lemma index_later ccap clients tl tr shards ls fs ps a1 a2 req t1 t2 :
    frun log2 sortBy (Z.to_nat n) ccap ls (fInit (Z.to_nat n) clients tl tr shards) = Some fs →
    wlog (fWorlds fs) ps →
    a1 ∈ fAnswers fs → fReqs fs !! faSearch a1 = Some (req, t1) →
    a2 ∈ fAnswers fs → fReqs fs !! faSearch a2 = Some (req, t2) → (faEnd a1 <= t2)%nat →
    index_request o req → rsTimeout (faResp a2) = false →
    ∃ ids1 ids2 late1,
      tells_ids req ids1 late1 (faResp a1) ∧ heard_from (Z.to_nat n) req (heardOf (faGot a1)) late1 ∧
      lists_heard cs (fWorlds fs) t1 (faEnd a1) req (heardOf (faGot a1)) ids1 ∧
      tells_ids req ids2 false (faResp a2) ∧ heard_from (Z.to_nat n) req (heardOf (faGot a2)) false ∧
      lists_heard cs (fWorlds fs) t2 (faEnd a2) req (heardOf (faGot a2)) ids2 ∧
      ∀ d f ct a fo, only_call cs (DocId d) (EIndex d f ct a fo) → DocId d ∈ ids1 → DocId d ∈ ids2.
  Proof. intros ? HW%to_rest. by eapply (index_later_mo _ _ _ _ _ _ _ rest). Qed.
  Lemma index_count ccap clients tl tr shards ls fs ps a1 a2 req t1 t2 :
    NoDup (omap call_id cs) →
    frun log2 sortBy (Z.to_nat n) ccap ls (fInit (Z.to_nat n) clients tl tr shards) = Some fs →
    wlog (fWorlds fs) ps →
    a1 ∈ fAnswers fs → fReqs fs !! faSearch a1 = Some (req, t1) →
    a2 ∈ fAnswers fs → fReqs fs !! faSearch a2 = Some (req, t2) → (faEnd a1 <= t2)%nat →
    index_request o req → rsTimeout (faResp a2) = false →
    rsNumDocs (faResp a1) <= rsNumDocs (faResp a2).
  Proof. intros ?? HW%to_rest. by eapply (index_count_mo _ _ _ _ _ _ _ rest). Qed.
End Deadline.

(** * A session on existing files *)
Section SessionDeadline.
  Context (murmur : string → Z) (n : Z) (only reqsFirst : bool) (cap : chan → nat) (Hn : 1 <= n < 2^32).
  Context (accepts : string → string → bool) (encode : DocData → option string) (nS : Z) (HnS : 1 <= nS < 2^32) (reqsFirst2 : bool).
  Context (iter : kv → list (string * string)) (Hiter : valid_iter iter) (decode : string → DocData * bool).
  Context (X : Ext) (stop : gset string) (o : SegOpts) (HX : valid_range X).
  Notation wstep := (wholeStep murmur n only reqsFirst cap accepts encode nS reqsFirst2).
  Notation sreachp := (session_reach murmur n only reqsFirst cap accepts encode nS reqsFirst2).
  Context (sortDocs : list DocIndex → list DocIndex) (io : IndexerOpts) (s0 : Indexer) (nseg : nat).
  Context (recs : list (list ecall)) (progs : list (list wcall)) (dbs : Z → kv).
  Context (Hv : valid_sort sortDocs) (HI : Init io = Some s0).
  Context (Hpl : placed murmur nS dbs) (Hz : no_zero nS dbs) (Hrecs : recoverProgs iter decode X stop o nS dbs = Some recs).
  Context (Hmade : made_of X stop o (mjoin progs)).
  Notation csx := (mjoin ((pipeProg <$> progs) ++ recs)).
  Notation there := (stored_or_given murmur nS decode dbs (mjoin progs)).
  Notation single := (one_source murmur nS dbs (mjoin progs)).
  Context (log2 : F → F) (sortBy : (ScoredDoc → ScoredDoc → bool) → list ScoredDoc → list ScoredDoc).
  Notation good := (calls_good murmur nS HnS iter Hiter decode X stop o HX recs progs dbs Hpl Hz Hrecs Hmade).
  Notation to_there := (call_there murmur nS HnS iter Hiter decode X stop o HX recs progs dbs Hpl Hz Hrecs Hmade).
  Notation to_only := (there_only murmur nS HnS iter Hiter decode X stop o HX recs progs dbs Hpl Hz Hrecs Hmade).

  Lemma heard_session ws t1 t2 req hs full : answers_heard only csx ws t1 t2 req hs full →
    answers_in_time only X stop o there single ws t1 t2 req hs full.
  Proof.
    intros [H1 H2]. split.
    - intros h Hh. destruct (H1 h Hh) as (d & f & ct & a & fo & d' & f' & ct' & a' & fo' & Hc & Hw & Hc' & E & Hs).
      destruct (to_there _ _ _ _ _ Hc) as (x & Hx & Hsx & _). destruct (to_there _ _ _ _ _ Hc') as (y & Hy & Hsy & -> & -> & ->).
      pose proof (proj1 Hs) as Eh. exists x, d, y, d'. rewrite Eh. rewrite <-E in Hx, Hsx. done.
    - intros id d doc Ht Hs Hseg. destruct (to_only id d doc Ht Hs Hseg) as (<- & fo & Ho).
      exact (H2 _ _ _ _ _ Ho).
  Qed.
  Lemma lists_session ws t1 t2 req hs ids : lists_heard csx ws t1 t2 req hs ids →
    lists_in_time X stop o there single ws t1 t2 req hs ids.
  Proof.
    intros [H1 H2]. split.
    - intros id Hh. destruct (H1 id Hh) as (d & f & ct & a & fo & Hc & <- & Hw).
      destruct (to_there _ _ _ _ _ Hc) as (x & Hx & Hsx & _). by exists x, d.
    - intros id d doc Ht Hs Hseg. destruct (to_only id d doc Ht Hs Hseg) as (<- & fo & Ho).
      exact (H2 _ _ _ _ _ Ho).
  Qed.

  Section Run.
    Context (ccap : schan → nat) (clients : list (list SearchReq)) (tl tr : nat) (shards : list Shard) (ls : list flabel) (fs : fstate) (ss : list wstate).
    Context (Hf : frun log2 sortBy (Z.to_nat n) ccap ls (fInit (Z.to_nat n) clients tl tr shards) = Some fs).
    Context (HW : written_in (sreachp nseg recs progs) wstep sortDocs s0 only n (fWorlds fs) ss).

    Lemma session_timed ans req t0 : valid_sortBy sortBy →
      ans ∈ fAnswers fs → fReqs fs !! faSearch ans = Some (req, t0) →
      timed_request io req → Forall (scores_numbers log2 req) (fWorlds fs) →
      ∃ full out late, faResp ans = mkResp (rqTokens req) late (zlen full) (Some out) ∧ page_of req full out ∧
        heard_from (Z.to_nat n) req (heardOf (faGot ans)) late ∧
        answers_in_time only X stop o there single (fWorlds fs) t0 (faEnd ans) req (heardOf (faGot ans)) full.
    Proof.
      intros Hvb Ha Hq Hpr Hnan. destruct (written_session _ _ _ _ _ _ _ _ _ _ _ _ _ _ _ _ HW) as [ps HWl].
      destruct (timed_heard murmur n only reqsFirst cap Hn sortDocs io s0 nseg _ Hv HI good log2 sortBy ccap clients tl tr shards ls fs ps ans req t0
        Hvb Hf HWl Ha Hq Hpr Hnan) as (full & out & late & R & P & H & A).
      exists full, out, late. do 3 (split; [done|]). by apply heard_session.
    Qed.
    Lemma session_timed_later a1 a2 req t1 t2 : valid_sortBy sortBy →
      a1 ∈ fAnswers fs → fReqs fs !! faSearch a1 = Some (req, t1) →
      a2 ∈ fAnswers fs → fReqs fs !! faSearch a2 = Some (req, t2) → (faEnd a1 <= t2)%nat →
      timed_request io req → Forall (scores_numbers log2 req) (fWorlds fs) → rsTimeout (faResp a2) = false →
      ∃ full1 full2 out1 out2 late1,
        faResp a1 = mkResp (rqTokens req) late1 (zlen full1) (Some out1) ∧ page_of req full1 out1 ∧
        heard_from (Z.to_nat n) req (heardOf (faGot a1)) late1 ∧
        answers_in_time only X stop o there single (fWorlds fs) t1 (faEnd a1) req (heardOf (faGot a1)) full1 ∧
        faResp a2 = mkResp (rqTokens req) false (zlen full2) (Some out2) ∧ page_of req full2 out2 ∧
        heard_from (Z.to_nat n) req (heardOf (faGot a2)) false ∧
        answers_in_time only X stop o there single (fWorlds fs) t2 (faEnd a2) req (heardOf (faGot a2)) full2 ∧
        ∀ id d, there id d → single id → score_accepts (ScoringCriteria (rqOpts req)) id (ddFields d) →
          id ∈ sdDocId <$> full1 → id ∈ sdDocId <$> full2.
    Proof.
      intros Hvb Ha1 Hq1 Ha2 Hq2 Hle Hpr Hnan Hlate. destruct (written_session _ _ _ _ _ _ _ _ _ _ _ _ _ _ _ _ HW) as [ps HWl].
      destruct (timed_later murmur n only reqsFirst cap Hn sortDocs io s0 nseg _ Hv HI good log2 sortBy ccap clients tl tr shards ls fs ps a1 a2 req t1 t2
        Hvb Hf HWl Ha1 Hq1 Ha2 Hq2 Hle Hpr Hnan Hlate) as (full1 & full2 & out1 & out2 & late1 & R1 & P1 & H1 & A1 & R2 & P2 & H2 & A2 & HL).
      exists full1, full2, out1, out2, late1. do 3 (split; [done|]). split; [by apply heard_session|]. do 3 (split; [done|]). split; [by apply heard_session|].
      intros id d Ht Hs Hsc Hin. destruct (ProofSegment.segDoc_total X stop o id d) as [doc Hseg].
      destruct (to_only id d doc Ht Hs Hseg) as (<- & fo & Ho). by eapply HL.
    Qed.
    Lemma session_index ans req t0 :
      ans ∈ fAnswers fs → fReqs fs !! faSearch ans = Some (req, t0) → index_request io req →
      ∃ ids late, tells_ids req ids late (faResp ans) ∧ heard_from (Z.to_nat n) req (heardOf (faGot ans)) late ∧
        lists_in_time X stop o there single (fWorlds fs) t0 (faEnd ans) req (heardOf (faGot ans)) ids.
    Proof.
      intros Ha Hq Hpr. destruct (written_session _ _ _ _ _ _ _ _ _ _ _ _ _ _ _ _ HW) as [ps HWl].
      destruct (index_heard murmur n only reqsFirst cap Hn sortDocs io s0 nseg _ Hv HI good log2 sortBy ccap clients tl tr shards ls fs ps ans req t0
        Hf HWl Ha Hq Hpr) as (ids & late & R & H & A).
      exists ids, late. do 2 (split; [done|]). by apply lists_session.
    Qed.
    Lemma session_index_later a1 a2 req t1 t2 :
      a1 ∈ fAnswers fs → fReqs fs !! faSearch a1 = Some (req, t1) →
      a2 ∈ fAnswers fs → fReqs fs !! faSearch a2 = Some (req, t2) → (faEnd a1 <= t2)%nat →
      index_request io req → rsTimeout (faResp a2) = false →
      ∃ ids1 ids2 late1,
        tells_ids req ids1 late1 (faResp a1) ∧ heard_from (Z.to_nat n) req (heardOf (faGot a1)) late1 ∧
        lists_in_time X stop o there single (fWorlds fs) t1 (faEnd a1) req (heardOf (faGot a1)) ids1 ∧
        tells_ids req ids2 false (faResp a2) ∧ heard_from (Z.to_nat n) req (heardOf (faGot a2)) false ∧
        lists_in_time X stop o there single (fWorlds fs) t2 (faEnd a2) req (heardOf (faGot a2)) ids2 ∧
        ∀ id d, there id d → single id → id ∈ ids1 → id ∈ ids2.
    Proof.
      intros Ha1 Hq1 Ha2 Hq2 Hle Hpr Hlate. destruct (written_session _ _ _ _ _ _ _ _ _ _ _ _ _ _ _ _ HW) as [ps HWl].
      destruct (index_later murmur n only reqsFirst cap Hn sortDocs io s0 nseg _ Hv HI good log2 sortBy ccap clients tl tr shards ls fs ps a1 a2 req t1 t2
        Hf HWl Ha1 Hq1 Ha2 Hq2 Hle Hpr Hlate) as (ids1 & ids2 & late1 & R1 & H1 & A1 & R2 & H2 & A2 & HL).
      exists ids1, ids2, late1. do 2 (split; [done|]). split; [by apply lists_session|]. do 2 (split; [done|]). split; [by apply lists_session|].
      intros id d Ht Hs Hin. destruct (ProofSegment.segDoc_total X stop o id d) as [doc Hseg].
      destruct (to_only id d doc Ht Hs Hseg) as (<- & fo & Ho). by eapply HL.
    Qed.
    Lemma session_index_count a1 a2 req t1 t2 :
      (∀ id d, there id d → single id) →
      a1 ∈ fAnswers fs → fReqs fs !! faSearch a1 = Some (req, t1) →
      a2 ∈ fAnswers fs → fReqs fs !! faSearch a2 = Some (req, t2) → (faEnd a1 <= t2)%nat →
      index_request io req → rsTimeout (faResp a2) = false →
      rsNumDocs (faResp a1) <= rsNumDocs (faResp a2).
    Proof.
      intros Hall Ha1 Hq1 Ha2 Hq2 Hle Hpr Hlate.
      destruct (session_index_later a1 a2 req t1 t2) as (ids1 & ids2 & late1 & R1 & _ & A1 & R2 & _ & _ & HL); [done..|].
      destruct R1 as (_ & _ & -> & _). destruct R2 as (_ & _ & -> & _).
      assert (HN : NoDup ids1).
      { apply ids_NoDup. intros id Hid. destruct (proj1 A1 id Hid) as (d & doc & Ht & Hseg & _). by apply (proj2 A1 id d doc Ht (Hall _ _ Ht) Hseg). }
      assert (HS : ids1 ⊆+ ids2).
      { apply NoDup_submseteq; [done|]. intros id Hid. destruct (proj1 A1 id Hid) as (d & doc & Ht & _). by eapply HL; [exact Ht|eauto|]. }
      apply submseteq_length in HS. unfold zlen. lia.
    Qed.
  End Run.
End SessionDeadline.
