(** The scores of searches while a session on existing files is running. *)
From Verif Require Import ModelSession ModelEngine ModelFlight SpecIndexer SpecSearch SpecRank SpecRoute SpecPipe SpecEngine SpecFlight SpecStore
  SpecEnd SpecLife SpecWhole SpecSession SpecDuring SpecSessionDuring SpecDeadline SpecSegment SpecLogic SpecBM25 SpecFits SpecScored SpecRescored SpecGrowing SpecGrowingSession
  ProofRoute ProofPipe ProofSegEnd ProofWhole ProofSession ProofSessionThms ProofEnd ProofFits ProofDuring ProofSessionDuring ProofDeadline ProofScored ProofNumbers ProofGrowing.

Section GrowingSession.
  Context (murmur : string → Z) (n : Z) (only reqsFirst : bool) (cap : chan → nat) (Hn : 1 <= n < 2^32).
  Context (accepts : string → string → bool) (encode : DocData → option string) (nS : Z) (HnS : 1 <= nS < 2^32) (reqsFirst2 : bool).
  Context (iter : kv → list (string * string)) (Hiter : valid_iter iter) (decode : string → DocData * bool).
  Context (X : Ext) (stop : gset string) (o : SegOpts) (HX : valid_range X).
  Notation wstep := (wholeStep murmur n only reqsFirst cap accepts encode nS reqsFirst2).
  Notation sreachp := (session_reach murmur n only reqsFirst cap accepts encode nS reqsFirst2).
  Context (sortDocs : list DocIndex → list DocIndex) (io : IndexerOpts) (s0 : Indexer) (nseg : nat).
  Context (recs : list (list ecall)) (progs : list (list wcall)) (dbs : Z → kv).
  Context (Hv : valid_sort sortDocs) (HI : Init io = Some s0).
  Context (Hpl : placed murmur nS dbs) (Hz : SpecLife.no_zero nS dbs) (Hrecs : recoverProgs iter decode X stop o nS dbs = Some recs).
  Context (Hmade : made_of X stop o (mjoin progs)) (Hnew : new_ids murmur nS dbs (mjoin progs)).
  Notation csx := (mjoin ((pipeProg <$> progs) ++ recs)).
  Notation there := (stored_or_given murmur nS decode dbs (mjoin progs)).
  Notation single := (one_source murmur nS dbs (mjoin progs)).
  Notation good := (calls_good murmur nS HnS iter Hiter decode X stop o HX recs progs dbs Hpl Hz Hrecs Hmade).
  Notation to_there := (call_there murmur nS HnS iter Hiter decode X stop o HX recs progs dbs Hpl Hz Hrecs Hmade).
  Notation recsw := (recs_write murmur nS HnS iter Hiter decode X stop o HX dbs recs Hpl Hz Hrecs).

  Lemma csx_nodup : NoDup (omap call_id csx).
  Proof.
    destruct Hnew as (Hf & Hnd & _). rewrite calls_split.
    assert (HP : omap call_id (pipeProg (mjoin progs) ++ mjoin recs) ≡ₚ omap call_id (mjoin recs ++ pipeProg (mjoin progs))).
    { rewrite !omap_app. apply Permutation_app_comm. }
    rewrite HP. eapply fresh_nodup; [exact HnS|exact Hiter|exact HX|exact Hpl|exact Hz|exact Hrecs|exact Hf|exact Hnd].
  Qed.
  Lemma csx_good : Forall (λ c, good_call c ∧ call_id c ≠ Some "0") csx.
  Proof.
    apply Forall_forall. intros c Hc. pose proof good as HG. rewrite Forall_forall in HG. split; [by apply HG|].
    rewrite calls_split in Hc. apply elem_of_app in Hc as [Hc|Hc].
    - destruct Hnew as (_ & _ & H0). intros E. apply H0, elem_of_list_omap. by exists c.
    - destruct recsw as (_ & [HR _] & _). rewrite Forall_forall in HR. by destruct (HR c Hc).
  Qed.
  Lemma there_call id d doc : there id d → segDoc X stop o id d = Some doc →
    DocId doc = id ∧ ∃ fo, EIndex doc (ddFields d) (ddContent d) (ddAttri d) fo ∈ csx.
  Proof.
    intros Ht Hseg. destruct (segDoc_good _ _ _ _ _ _ HX Hseg) as [_ Hid]. split; [done|]. rewrite calls_split.
    destruct Ht as [Hst|(doc' & fo & Hc & E)].
    - destruct recsw as (_ & _ & _ & R2). destruct (R2 id d Hst) as (doc' & Hseg' & _ & Hin). rewrite Hseg in Hseg'. injection Hseg' as <-.
      exists false. apply elem_of_app. by right.
    - pose proof (Hmade _ _ _ Hc) as Hseg'. rewrite E, Hseg in Hseg'. injection Hseg' as <-. exists fo. apply elem_of_app. left.
      apply elem_of_list_fmap. by exists (WIndex doc d fo).
  Qed.
  Lemma ever_documents i : documents_of murmur n X stop o there i (shard_docs murmur n i csx).
  Proof.
    split; [apply shard_docs_NoDup, csx_nodup|]. intros doc. rewrite shard_docs_elem. split.
    - intros (f & ct & a & fo & Hc & _ & Hs). destruct (to_there _ _ _ _ _ Hc) as (d & Hd & Hseg & -> & -> & ->). by exists d.
    - intros (d & Hd & Hseg & Hs). destruct (there_call _ _ _ Hd Hseg) as (_ & fo & Hc).
      exists (ddFields d), (ddContent d), (ddAttri d), fo. done.
  Qed.

  Context (log2 : F → F) (sortBy : (ScoredDoc → ScoredDoc → bool) → list ScoredDoc → list ScoredDoc) (Hvb : valid_sortBy sortBy).
  Theorem growing_session ccap clients tl tr shards ls fs ss ans req t0 :
    frun log2 sortBy (Z.to_nat n) ccap ls (fInit (Z.to_nat n) clients tl tr shards) = Some fs →
    written_in (sreachp nseg recs progs) wstep sortDocs s0 only n (fWorlds fs) ss →
    ans ∈ fAnswers fs → fReqs fs !! faSearch ans = Some (req, t0) →
    timed_request io req → ¬ with_logic req → Forall (scores_numbers log2 req) (fWorlds fs) →
    ∃ full out late, faResp ans = mkResp (rqTokens req) late (zlen full) (Some out) ∧ page_of req full out ∧
      heard_from (Z.to_nat n) req (heardOf (faGot ans)) late ∧
      answers_in_time only X stop o there single (fWorlds fs) t0 (faEnd ans) req (heardOf (faGot ans)) full ∧
      scored_meanwhile log2 io murmur n only X stop o there (fWorlds fs) t0 (faEnd ans) req full.
  Proof.
    intros Hf HW Ha Hq Hpr Hnl Hnan. destruct (written_session _ _ _ _ _ _ _ _ _ _ _ _ _ _ _ _ HW) as [ps HWl].
    destruct (growing_written murmur n only reqsFirst cap Hn sortDocs io s0 nseg _ Hv HI csx_good csx_nodup log2 sortBy ccap clients tl tr shards ls fs ps ans req t0
      Hvb Hf HWl Ha Hq Hpr Hnl Hnan) as (full & out & late & R & P & H & A & S).
    exists full, out, late. do 3 (split; [done|]). split; [by eapply heard_session|].
    intros i Hi. destruct (S i Hi) as (t & w & sh & Ht & Hw & Hsh & Htot & HS). exists t, w, sh, (shard_docs murmur n (Z.of_nat i) csx).
    do 3 (split; [done|]). split; [apply ever_documents|]. cbn zeta in *. split; [done|].
    intros h d doc Hh Hd Hseg Hs. destruct (there_call _ _ _ Hd Hseg) as (E & fo & Hc). eapply HS; [done|exact Hc|done|by rewrite E].
  Qed.
  Lemma growing_session_numbers ws ss req :
    written_in (sreachp nseg recs progs) wstep sortDocs s0 only n ws ss →
    timed_request io req → sane_scoring (ScoringCriteria (rqOpts req)) → usual_log2 log2 →
    usual_history io (mjoin recs ++ pipeProg (mjoin progs)) → Forall (scores_numbers log2 req) ws.
  Proof.
    intros HW Hpr Hsc Hlog Hu. eapply numbers_session_during; [exact Hn|exact Hv|exact HI| |exact HW|apply Hpr|exact Hsc|exact Hlog|exact Hu].
    pose proof good as HG. rewrite calls_split in HG. apply Forall_app in HG as [? ?]. by apply Forall_app.
  Qed.
End GrowingSession.
