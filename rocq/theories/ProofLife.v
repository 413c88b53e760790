(** Searches after a restart. *)
From Verif Require Import ModelPipe ModelEngine ModelStore SpecIndexer SpecSearch SpecRank SpecRoute SpecPipe SpecSegment SpecEngine SpecFlight SpecStore SpecEnd SpecLife
  ProofSegThms ProofSegEnd ProofStore ProofStoreRun ProofStoreEnd ProofStoreThms ProofRecover ProofEnd.

Section Life.
  Context (murmur : string → Z) (n : Z) (only reqsFirst : bool) (cap : chan → nat) (Hn : 1 <= n < 2^32).
  Context (iter : kv → list (string * string)) (Hiter : valid_iter iter) (decode : string → DocData * bool).
  Context (X : Ext) (stop : gset string) (o : SegOpts) (HX : valid_range X).

  Lemma recover_members nS dbs progs : 1 <= nS < 2^32 → placed murmur nS dbs → no_zero nS dbs →
    recoverProgs iter decode X stop o nS dbs = Some progs →
    once_each (mjoin (progs ++ [[EFlush]])) ∧
    (∀ doc f ct a fo, EIndex doc f ct a fo ∈ mjoin (progs ++ [[EFlush]]) →
       ∃ d, stored murmur nS decode dbs (DocId doc) d ∧ segDoc X stop o (DocId doc) d = Some doc ∧
         f = ddFields d ∧ ct = ddContent d ∧ a = ddAttri d) ∧
    (∀ id d, stored murmur nS decode dbs id d → ∃ doc, segDoc X stop o id d = Some doc ∧ DocId doc = id ∧
       EIndex doc (ddFields d) (ddContent d) (ddAttri d) false ∈ mjoin (progs ++ [[EFlush]])).
  Proof.
    intros HnS Hpl Hz Hp. destruct (recover_calls iter decode X stop o nS dbs progs Hp) as (rs & Hrs & HF).
    assert (Hres : restart iter decode nS dbs rs) by (subst rs; apply merges_total).
    pose proof (restart_nodup iter Hiter decode murmur nS dbs rs Hres Hpl) as Hnd.
    assert (Hin : ∀ id d, (id, d) ∈ rs ↔ stored murmur nS decode dbs id d).
    { intros id d. rewrite (restart_in iter Hiter decode nS dbs rs id d Hres). split.
      - intros (j & v & Hj & Hv & Hd). exists v. by rewrite (Hpl j id Hj) by by eexists.
      - intros (v & Hv & Hd). exists (storeShard murmur nS id), v. split; [apply shard_range; lia|done]. }
    assert (Hc : ∀ p c, indexCall X stop o p.1 p.2 false = Some c →
      ∃ doc, segDoc X stop o p.1 p.2 = Some doc ∧ good_doc doc ∧ DocId doc = p.1 ∧
        c = EIndex doc (ddFields p.2) (ddContent p.2) (ddAttri p.2) false).
    { intros p c H. unfold indexCall in H. destruct (segDoc X stop o p.1 p.2) as [doc|] eqn:E; [|done]. cbn in H.
      injection H as <-. destruct (segDoc_good _ _ _ _ _ _ HX E) as [Hg Hid]. by exists doc. }
    assert (Hids : omap call_id (mjoin progs) = rs.*1).
    { clear -HF Hc. induction HF as [|p c rs cs H _ IH]; [done|]. destruct (Hc p c H) as (doc & _ & _ & Hid & ->). cbn. by rewrite Hid, IH. }
    assert (HJ : mjoin (progs ++ [[EFlush]]) = mjoin progs ++ [EFlush]).
    { clear. induction progs as [|p ps IH]; [done|]. cbn. rewrite <- app_assoc. f_equal. exact IH. }
    rewrite HJ. split; [|split].
    - split.
      + apply Forall_app. split; [|by repeat constructor]. apply Forall_forall. intros c Hcin.
        apply elem_of_list_lookup in Hcin as [k Hk]. destruct (Forall2_lookup_r _ _ _ _ _ HF Hk) as (p & Hpk & H).
        destruct (Hc p c H) as (doc & _ & Hg & Hid & ->). split; [done|]. cbn. rewrite Hid. intros [= E].
        apply elem_of_list_lookup_2 in Hpk. destruct p as [id d]. cbn in E. subst id. apply Hin in Hpk as (v & Hv & _).
        rewrite Hz in Hv; [done|]. apply shard_range. lia.
      + rewrite omap_app, app_nil_r, Hids. done.
    - intros doc f ct a fo [Hcin|Hcin]%elem_of_app; [|by apply elem_of_list_singleton in Hcin].
      apply elem_of_list_lookup in Hcin as [k Hk]. destruct (Forall2_lookup_r _ _ _ _ _ HF Hk) as ([id d] & Hpk & H).
      destruct (Hc _ _ H) as (doc' & Hs & _ & Hid & E). injection E as -> -> -> -> ->. cbn [fst snd] in *. subst id.
      exists d. split; [|done]. apply Hin. by eapply elem_of_list_lookup_2.
    - intros id d Hst. apply Hin in Hst. apply elem_of_list_lookup in Hst as [k Hk].
      destruct (Forall2_lookup_l _ _ _ _ _ HF Hk) as (c & Hck & H).
      destruct (Hc _ _ H) as (doc & Hs & _ & Hid & ->). cbn [fst snd] in *. exists doc. split; [done|]. split; [done|].
      apply elem_of_app. left. by eapply elem_of_list_lookup_2.
  Qed.

  Theorem life_search sortDocs sortBy io s0 nseg nS dbs progs s shards log2 req order :
    valid_sort sortDocs → valid_sortBy sortBy → Init io = Some s0 →
    1 <= nS < 2^32 → placed murmur nS dbs → no_zero nS dbs →
    recoverProgs iter decode X stop o nS dbs = Some progs →
    pipe_reach murmur n only reqsFirst cap nseg (progs ++ [[EFlush]]) s → quiescent s →
    engine_shards sortDocs s0 only n s shards → Forall nothing_waits shards →
    plain_request io req → scores_numbers log2 req shards → all_arrive (length shards) order →
    ∃ full out, Search log2 sortBy req shards order = Some (mkResp (rqTokens req) false (zlen full) (Some out)) ∧
      answers_docs only X stop o (stored murmur nS decode dbs) req full out.
  Proof.
    intros Hv Hvb HI HnS Hpl Hz Hp Hr Hq Hsh Hw Hpr Hnan Ha.
    destruct (recover_members nS dbs progs HnS Hpl Hz Hp) as (Hon & H1 & H2).
    destruct (end_search murmur n only reqsFirst cap Hn sortDocs sortBy io s0 nseg _ s shards log2 req order Hv Hvb HI Hr Hq Hon Hsh Hw Hpr Hnan Ha)
      as (full & out & HS & F1 & F2 & F3 & F4 & F5 & F6).
    exists full, out. split; [done|]. split; [done|]. split; [done|]. split; [done|]. split; [done|]. split.
    - intros h Hh. destruct (F5 h Hh) as (doc & f & ct & a & fo & Hc & Hwn & Hsc).
      destruct (H1 _ _ _ _ _ Hc) as (d & Hst & Hsd & -> & -> & ->). by exists (DocId doc), d, doc.
    - intros id d Hst. destruct (H2 id d Hst) as (doc & Hsd & <- & Hc). exists doc. split; [done|]. split; [done|].
      intros Hwn Hacc. by apply (F6 _ _ _ _ _ Hc Hwn Hacc).
  Qed.

  Lemma survives_stored accepts encode nS dbs cs ss id d : 1 <= nS < 2^32 → round_trip encode decode → placed murmur nS dbs →
    (∀ id, SRemove id ∉ cs) → (∀ id d, SIndex id d ∈ cs → ∃ v, writable accepts encode id d v) →
    store_reach accepts encode murmur nS [cs] ss → store_quiet ss → no_zero nS dbs →
    stored murmur nS decode (dbAfter murmur nS dbs (ssLog ss)) id d ↔ survives murmur nS decode dbs cs id d.
  Proof.
    intros HnS Hrt Hpl Hnr Hwr Hr Hq Hz. set (dbs' := dbAfter murmur nS dbs (ssLog ss)).
    set (rs := mjoin ((λ j, storeInit iter decode (dbs' j)) <$> seqZ 0 nS)).
    assert (Hres : restart iter decode nS dbs' rs) by apply merges_total.
    pose proof (dbAfter_placed murmur nS dbs (ssLog ss) Hpl) as Hpl'.
    destruct (recover_lem accepts encode murmur nS dbs iter decode cs ss rs id d HnS Hiter Hrt Hpl Hnr Hwr Hr Hq Hres) as [_ HE].
    assert (Hin : (id, d) ∈ rs ↔ stored murmur nS decode dbs' id d).
    { rewrite (restart_in iter Hiter decode nS dbs' rs id d Hres). split.
      - intros (j & v & Hj & Hv & Hd). exists v. by rewrite (Hpl' j id Hj) by by eexists.
      - intros (v & Hv & Hd). exists (storeShard murmur nS id), v. split; [apply shard_range; lia|done]. }
    rewrite <- Hin, HE. unfold survives, stored. split.
    - intros [H|[[->|H] H']]; [by left| |by right].
      destruct H' as (v & Hv & _). rewrite Hz in Hv; [done|]. apply shard_range. lia.
    - intros [H|[H H']]; [by left|right]. split; [by right|done].
  Qed.

  Lemma no_zero_after accepts encode nS dbs progs ss : 1 <= nS < 2^32 → placed murmur nS dbs → no_zero nS dbs →
    store_reach accepts encode murmur nS progs ss → no_zero nS (dbAfter murmur nS dbs (ssLog ss)).
  Proof.
    intros HnS Hpl Hz Hr j Hj. destruct (dbAfter murmur nS dbs (ssLog ss) j !! "0") as [v|] eqn:E; [|done].
    pose proof (dbAfter_placed murmur nS dbs (ssLog ss) Hpl j "0" Hj (ex_intro _ v E)) as Es.
    destruct (no_zero_write _ _ _ _ dbs _ _ None Hr) as [_ Z2].
    pose proof (content_untouched murmur nS dbs "0" (ssLog ss)) as Hc. unfold content in Hc. rewrite Es, E in Hc.
    rewrite Hz in Hc by done. rewrite Hc; [done| |done]. intros v'. by destruct (no_zero_write _ _ _ _ dbs _ _ v' Hr).
  Qed.

  Theorem life_whole accepts encode sortDocs sortBy io s0 nseg nS dbs cs ss progs s shards log2 req order :
    valid_sort sortDocs → valid_sortBy sortBy → Init io = Some s0 →
    1 <= nS < 2^32 → round_trip encode decode → placed murmur nS dbs → no_zero nS dbs →
    (∀ id, SRemove id ∉ cs) → (∀ id d, SIndex id d ∈ cs → ∃ v, writable accepts encode id d v) →
    store_reach accepts encode murmur nS [cs] ss → store_quiet ss →
    recoverProgs iter decode X stop o nS (dbAfter murmur nS dbs (ssLog ss)) = Some progs →
    pipe_reach murmur n only reqsFirst cap nseg (progs ++ [[EFlush]]) s → quiescent s →
    engine_shards sortDocs s0 only n s shards → Forall nothing_waits shards →
    plain_request io req → scores_numbers log2 req shards → all_arrive (length shards) order →
    ∃ full out, Search log2 sortBy req shards order = Some (mkResp (rqTokens req) false (zlen full) (Some out)) ∧
      answers_docs only X stop o (survives murmur nS decode dbs cs) req full out.
  Proof.
    intros Hv Hvb HI HnS Hrt Hpl Hz Hnr Hwr Hr Hq Hp Hpr Hpq Hsh Hw Hreq Hnan Ha.
    destruct (life_search sortDocs sortBy io s0 nseg nS (dbAfter murmur nS dbs (ssLog ss)) progs s shards log2 req order)
      as (full & out & HS & F1 & F2 & F3 & F4 & F5 & F6); try done; [by apply dbAfter_placed|by eapply no_zero_after|].
    assert (HE : ∀ id d, stored murmur nS decode (dbAfter murmur nS dbs (ssLog ss)) id d ↔ survives murmur nS decode dbs cs id d)
      by (intros id d; by eapply survives_stored).
    exists full, out. split; [done|]. split; [done|]. split; [done|]. split; [done|]. split; [done|]. split.
    - intros h Hh. destruct (F5 h Hh) as (id & d & doc & Hst & Hrest). exists id, d, doc. split; [by apply HE|done].
    - intros id d Hst. apply F6. by apply HE.
  Qed.
End Life.
