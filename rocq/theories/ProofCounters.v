(** The public counters: sums over the log. *)
From Verif Require Import ModelCounters SpecPipe SpecCounters ProofTopK ProofRoute ProofPipe ProofLive.

Section Counters.
  Context (murmur : string → Z) (n : Z) (only reqsFirst : bool) (cap : chan → nat).
  Hypothesis Hn : 1 <= n < 2^32.
  Notation callA := (callActs n reqsFirst).
  Notation evsA := (evsA murmur n only).
  Notation evsM := (evsM murmur n only).
  Notation evsC := (evsC murmur n only reqsFirst).

  Section Weights.
    Context (om : event → Z) (a : op → Z).
    Hypothesis Hix : ∀ i o, om (EvIx i o) = a o.
    Hypothesis Hrk : ∀ i o, om (EvRk i o) = 0.
    Hypothesis Hnone : ∀ f, a (OpAdd None f) = 0.
    Hypothesis Hreq : ∀ c, c ≠ NumDocsIndexed → c ≠ NumDocsRemoved → om (EvInc c) = 0.

    Definition msgW (m : msg) : Z :=
      match m with
      | MSeg (EIndex d _ _ _ f) => if seqb (DocId d) "0" then 0 else a (OpAdd (Some d) f) + om (EvInc NumDocsIndexed)
      | MSeg _ => 0
      | MAdd _ (Some d) f => a (OpAdd (Some d) f) + om (EvInc NumDocsIndexed)
      | MAdd _ None _ => 0
      | MRem _ id f => a (OpRemove id f) + if seqb id "0" then 0 else om (EvInc NumDocsRemoved)
      | MRank _ _ => 0
      end.
    Lemma leafW m : is_seg m = false → W om (evsM m) = msgW m.
    Proof using All.
      clear Hn. intros Hm. destruct m as [c|i [d|] f|i id f|i o]; [done|..]; unfold ProofPipe.evsM; cbn -[W].
      - destruct f; unfold W, zsum; cbn; rewrite Hix, ?(Hreq NumDocsForceUpdated) by done; lia.
      - destruct f; unfold W, zsum; cbn; rewrite Hix, Hnone, ?(Hreq NumDocsForceUpdated) by done; lia.
      - destruct (seqb id "0"), f; unfold W, zsum; cbn; rewrite Hix, ?(Hreq NumDocsForceUpdated) by done; lia.
      - unfold W, zsum; cbn. rewrite Hrk. lia.
    Qed.
    Lemma segW c : W om (evsM (MSeg c)) = msgW (MSeg c).
    Proof using All.
      rewrite evsM_hand, W_evsA. cbn -[W evsM seqb msgW]. unfold segActs. destruct c as [d f ct at_ fo|id fo|]; [|done..]. cbn [msgW].
      destruct (seqb (DocId d) "0").
      - destruct fo; [|done]. rewrite <- list_fmap_compose. apply zsum_zero. intros i _. cbn -[W ProofPipe.evsM]. by rewrite leafW.
      - rewrite !fmap_app, !zsum_app.
        assert (E : zsum (W om ∘ evs murmur n only <$> (if fo then (λ i, ASend (CIxAdd i) (MAdd i None true)) <$> filter (λ i, i ≠ shardOf murmur n (DocId d) ct) (shards n) else [])) = 0).
        { destruct fo; [|done]. rewrite <- list_fmap_compose. apply zsum_zero. intros i _. cbn -[W ProofPipe.evsM]. by rewrite leafW. }
        rewrite E. cbn -[W ProofPipe.evsM]. unfold zsum. cbn -[W ProofPipe.evsM]. rewrite !leafW by done. cbn. lia.
    Qed.
    Definition callW (c : ecall) : Z :=
      match c with
      | EIndex d _ _ _ f => if seqb (DocId d) "0" then 0 else a (OpAdd (Some d) f) + om (EvInc NumDocsIndexed)
      | ERemove id f => n * (a (OpRemove id f) + if seqb id "0" then 0 else om (EvInc NumDocsRemoved))
      | EFlush => 0
      end.
    Lemma incsW id f c : c = NumIndexingReqs ∨ c = NumRemovingReqs → zsum (W om ∘ evs murmur n only <$> incs id f c) = 0.
    Proof using All.
      intros Hc. unfold incs, zsum, W, zsum. destruct (seqb id "0"), f; cbn; rewrite ?(Hreq c), ?(Hreq NumForceUpdatingReqs) by (naive_solver); done.
    Qed.
    Lemma callW_ok c : W om (evsA (callA c)) = callW c.
    Proof using All.
      destruct c as [d f ct at_ fo|id fo|]; cbn [callActs callW].
      - unfold indexActs. rewrite W_evsA, fmap_app, zsum_app, incsW by auto. unfold zsum. cbn -[W ProofPipe.evsM seqb].
        rewrite segW. cbn [msgW]. destruct (seqb (DocId d) "0"); lia.
      - rewrite W_evsA, fmap_app, zsum_app, incsW by auto.
        assert (Hs : ∀ l, zsum (W om ∘ evs murmur n only <$>
          mjoin ((λ i, ASend (CIxRem i) (MRem i id fo) :: (if seqb id "0" then [] else [ASend (CRkRem i) (MRank i (RORemove id))])) <$> l)) =
          zlen l * (a (OpRemove id fo) + if seqb id "0" then 0 else om (EvInc NumDocsRemoved))).
        { induction l as [|i l IH]; [done|]. rewrite fmap_cons, mjoin_cons, fmap_app, zsum_app, IH.
          unfold zlen. cbn [length]. unfold zsum at 1.
          destruct (seqb id "0") eqn:E0; cbn -[W ProofPipe.evsM Z.of_nat]; rewrite !leafW by done; cbn [msgW]; rewrite ?E0; lia. }
        rewrite Hs. unfold zlen, shards. rewrite seqZ_length, Z2Nat.id by lia. lia.
      - rewrite !evsA_app, !W_app, evsA_loop1. unfold indexActs. rewrite !evsA_app, !W_app, (W_evsA _ _ _ _ (incs _ _ _)), incsW by auto.
        rewrite !W_evsA. unfold zsum. cbn -[W ProofPipe.evsM]. rewrite segW. cbn. done.
    Qed.
    Lemma callsW cs : W om (evsC cs) = zsum (callW <$> cs).
    Proof using All. unfold ProofPipe.evsC. rewrite W_join. apply zsum_ext. intros c _. apply callW_ok. Qed.

    Lemma log_bound nseg progs s : (∀ e, 0 <= om e) → pipe_reach murmur n only reqsFirst cap nseg progs s →
      W om (sLog s) <= zsum (callW <$> mjoin progs).
    Proof using All.
      intros H0 Hr. rewrite <- callsW, <- (W_perm om _ _ (reach_all _ _ _ _ _ _ _ _ Hr)), W_app.
      assert (0 <= W om (evsAll murmur n only reqsFirst s)); [|lia]. clear Hr. generalize (evsAll murmur n only reqsFirst s).
      intros l. unfold W, zsum. induction l as [|e l IH]; cbn; [lia|]. specialize (H0 e). lia.
    Qed.
    Lemma log_rest nseg progs s : pipe_reach murmur n only reqsFirst cap nseg progs s → quiescent s →
      W om (sLog s) = zsum (callW <$> mjoin progs).
    Proof using All. intros Hr Hq. rewrite <- callsW. apply W_perm. by eapply rest_log. Qed.
  End Weights.

  Definition incW (c : counter) (e : event) : Z := if isInc c e then 1 else 0.
  Lemma value_incW log c : value log c = W (incW c) log.
  Proof.
    unfold value, W, zsum, zlen, incW. induction log as [|e log IH]; [done|]. rewrite filter_cons. cbn [fmap list_fmap foldr]. rewrite <- IH.
    destruct (isInc c e); [rewrite decide_True by done|rewrite decide_False by done]; cbn [length]; lia.
  Qed.
  Lemma tokens_W log : numTokenIndexAdded log = W tokensOf log.
  Proof. unfold numTokenIndexAdded, W, zsum. induction log as [|e log IH]; [done|]. cbn. by rewrite IH. Qed.

  Lemma zsum_cons x l : zsum (x :: l) = x + zsum l.
  Proof. done. Qed.
  Lemma zlen_cons {A} (x : A) l : zlen (x :: l) = 1 + zlen l.
  Proof. unfold zlen. cbn [length]. lia. Qed.
  Lemma sum_indexed cs : zsum (callW (incW NumDocsIndexed) (λ _, 0) <$> cs) = zlen (index_calls cs).
  Proof.
    induction cs as [|c cs IH]; [done|]. rewrite fmap_cons, zsum_cons, IH.
    destruct c as [d f ct at_ fo|id fo|]; cbn [callW].
    - rewrite seqb_decide. unfold index_calls. cbn [omap list_omap]. case_decide; [lia|]. rewrite zlen_cons.
      change (incW NumDocsIndexed (EvInc NumDocsIndexed)) with 1. unfold index_calls. lia.
    - change (incW NumDocsIndexed (EvInc NumDocsRemoved)) with 0. change (index_calls (ERemove id fo :: cs)) with (index_calls cs).
      destruct (seqb id "0"); lia.
    - change (index_calls (EFlush :: cs)) with (index_calls cs). lia.
  Qed.
  Lemma sum_removed cs : zsum (callW (incW NumDocsRemoved) (λ _, 0) <$> cs) = n * zlen (removal_calls cs).
  Proof.
    induction cs as [|c cs IH]; [change (zlen (removal_calls [])) with 0; change (zsum _) with 0; lia|]. rewrite fmap_cons, zsum_cons, IH.
    destruct c as [d f ct at_ fo|id fo|]; cbn [callW].
    - change (incW NumDocsRemoved (EvInc NumDocsIndexed)) with 0. change (removal_calls (EIndex d f ct at_ fo :: cs)) with (removal_calls cs).
      destruct (seqb (DocId d) "0"); lia.
    - rewrite seqb_decide. unfold removal_calls. cbn [omap list_omap]. case_decide; [lia|]. rewrite zlen_cons.
      change (incW NumDocsRemoved (EvInc NumDocsRemoved)) with 1. unfold removal_calls. lia.
    - change (removal_calls (EFlush :: cs)) with (removal_calls cs). lia.
  Qed.
  Definition tokW (o : op) : Z := match o with OpAdd (Some d) _ => zlen (Keywords d) | _ => 0 end.
  Lemma sum_tokens cs : zsum (callW tokensOf tokW <$> cs) = zlen (keywords_of (index_calls cs)).
  Proof.
    induction cs as [|c cs IH]; [done|]. rewrite fmap_cons, zsum_cons, IH.
    destruct c as [d f ct at_ fo|id fo|]; cbn [callW tokW].
    - rewrite seqb_decide. unfold index_calls. cbn [omap list_omap]. case_decide; [lia|]. unfold keywords_of. rewrite fmap_cons, mjoin_cons.
      change (tokensOf (EvInc NumDocsIndexed)) with 0. unfold zlen. rewrite app_length. lia.
    - change (tokensOf (EvInc NumDocsRemoved)) with 0. change (index_calls (ERemove id fo :: cs)) with (index_calls cs).
      destruct (seqb id "0"); lia.
    - change (index_calls (EFlush :: cs)) with (index_calls cs). lia.
  Qed.

  Lemma counters_bound nseg progs s : pipe_reach murmur n only reqsFirst cap nseg progs s →
    NumIndexed s <= zlen (index_calls (mjoin progs)) ∧ NumRemoved s <= n * zlen (removal_calls (mjoin progs)) ∧
    NumTokenAdded s <= zlen (keywords_of (index_calls (mjoin progs))).
  Proof.
    intros Hr. unfold NumIndexed, NumRemoved, NumTokenAdded. rewrite !value_incW, tokens_W, <- sum_indexed, <- sum_removed, <- sum_tokens.
    split; [|split]; eapply log_bound; try exact Hr; try done.
    all: try (intros c H1 H2; unfold incW; cbn; by rewrite bool_decide_false).
    all: try (intros e; unfold incW; by destruct (isInc _ e)).
    intros e. destruct e as [c|i [[d|] f|id f]|i o]; cbn; unfold zlen; lia.
  Qed.
  Lemma counters_rest nseg progs s : pipe_reach murmur n only reqsFirst cap nseg progs s → quiescent s →
    NumIndexed s = zlen (index_calls (mjoin progs)) ∧ NumRemoved s = n * zlen (removal_calls (mjoin progs)) ∧
    NumTokenAdded s = zlen (keywords_of (index_calls (mjoin progs))).
  Proof.
    intros Hr Hq. unfold NumIndexed, NumRemoved, NumTokenAdded. rewrite !value_incW, tokens_W, <- sum_indexed, <- sum_removed, <- sum_tokens.
    split; [|split]; eapply log_rest; try exact Hr; try exact Hq; try done.
    all: intros c H1 H2; unfold incW; cbn; by rewrite bool_decide_false.
  Qed.
End Counters.
