(** Proofs for C119 and C120: the documents that a shard has only become more. *)
From Verif Require Import ModelSession ModelPipe ModelEngine ModelFlight SpecIndexer SpecSearch SpecRank SpecRoute SpecPipe SpecEngine SpecFlight SpecStore SpecEnd SpecLife SpecWhole SpecSession
  SpecSegment SpecDuring SpecSessionDuring SpecScored SpecRescored SpecGrowing SpecGrowingSession
  ProofEnd ProofMoments ProofScored ProofDuring ProofSessionDuring ProofGrowing ProofGrowingSession.

Lemma held_stays murmur n only o cs {P : Type} (shard_in : P → nat → Shard → Prop) (grows : P → P → Prop) ws ps t t' w w' i sh sh' :
  moments murmur n only o cs shard_in grows → NoDup (omap call_id cs) → written_as n shard_in grows ws ps → (t <= t')%nat →
  ws !! t = Some w → ws !! t' = Some w' → w !! i = Some sh → w' !! i = Some sh' →
  held (shIx sh) (shard_docs murmur n (Z.of_nat i) cs) ⊆ held (shIx sh') (shard_docs murmur n (Z.of_nat i) cs).
Proof.
  intros Hmo Hnd [HW1 HW2] Ht Hw Hw' Hi Hi' d [Hh Hd]%elem_of_list_filter. apply elem_of_list_filter. split; [|done].
  destruct (Forall2_lookup_r _ _ _ _ _ HW2 Hw) as (p & Hp & _ & Hs). destruct (Forall2_lookup_r _ _ _ _ _ HW2 Hw') as (q & Hq & _ & Hs').
  apply shard_docs_elem in Hd as (f & ct & a & fo & Hc & _).
  exact (mo_has _ _ _ _ _ _ _ Hmo p q i sh sh' d f ct a fo (Hs i sh Hi) (Hs' i sh' Hi') (HW1 t t' p q Ht Hp Hq) (nodup_once cs Hnd _ _ _ _ _ Hc) Hh).
Qed.

Section Session.
  Context (murmur : string → Z) (n : Z) (only reqsFirst : bool) (cap : chan → nat) (Hn : 1 <= n < 2^32).
  Context (accepts : string → string → bool) (encode : DocData → option string) (nS : Z) (HnS : 1 <= nS < 2^32) (reqsFirst2 : bool).
  Context (iter : kv → list (string * string)) (Hiter : valid_iter iter) (decode : string → DocData * bool).
  Context (X : Ext) (stop : gset string) (o : SegOpts) (HX : valid_range X).
  Context (sortDocs : list DocIndex → list DocIndex) (io : IndexerOpts) (s0 : Indexer) (nseg : nat).
  Context (recs : list (list ecall)) (progs : list (list wcall)) (dbs : Z → kv).
  Context (Hv : valid_sort sortDocs) (HI : Init io = Some s0).
  Context (Hpl : placed murmur nS dbs) (Hz : SpecLife.no_zero nS dbs) (Hrecs : recoverProgs iter decode X stop o nS dbs = Some recs).
  Context (Hmade : made_of X stop o (mjoin progs)) (Hnew : new_ids murmur nS dbs (mjoin progs)).
  Lemma held_session ws ss t t' w w' i sh sh' ever :
    written_in (session_reach murmur n only reqsFirst cap accepts encode nS reqsFirst2 nseg recs progs)
      (wholeStep murmur n only reqsFirst cap accepts encode nS reqsFirst2) sortDocs s0 only n ws ss →
    documents_of murmur n X stop o (stored_or_given murmur nS decode dbs (mjoin progs)) (Z.of_nat i) ever →
    (t <= t')%nat → ws !! t = Some w → ws !! t' = Some w' → w !! i = Some sh → w' !! i = Some sh' → held (shIx sh) ever ⊆ held (shIx sh') ever.
  Proof.
    intros HW [_ He] Ht Hw Hw' Hi Hi' d [Hh Hd]%elem_of_list_filter. apply elem_of_list_filter. split; [|done].
    destruct (written_session _ _ _ _ _ _ _ _ _ _ _ _ _ _ _ _ HW) as [ps HWl]. apply (written_rest murmur n only reqsFirst cap) in HWl.
    assert (HG := csx_good murmur nS HnS iter Hiter decode X stop o HX recs progs dbs Hpl Hz Hrecs Hmade Hnew).
    assert (HN := csx_nodup murmur nS HnS iter Hiter decode X stop o HX recs progs dbs Hpl Hz Hrecs Hnew).
    assert (Hin : d ∈ shard_docs murmur n (Z.of_nat i) (mjoin ((pipeProg <$> progs) ++ recs))).
    { eapply (proj2 (ever_documents murmur n nS HnS iter Hiter decode X stop o HX recs progs dbs Hpl Hz Hrecs Hmade Hnew (Z.of_nat i))). by apply He. }
    pose proof (held_stays murmur n only io _ _ _ ws ps t t' w w' i sh sh'
      (at_rest murmur n only reqsFirst cap Hn sortDocs io s0 nseg _ Hv HI (Hgood _ HG)) HN HWl Ht Hw Hw' Hi Hi' d) as H.
    unfold held in H. rewrite !elem_of_list_filter in H. by apply H.
  Qed.
End Session.
