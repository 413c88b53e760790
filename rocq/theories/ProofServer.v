(** Proofs about the engines behind the servers. *)
From Verif Require Import ModelNet ModelStart SpecStart ProofStart.

Definition strGiven (s d : string) : string := if decide (s = ""%string) then d else s.

Lemma init_server env c st : netStep netStart (NInit env c) = Ok st →
  let e := nCom st in
  initialized e = true ∧
  NumShards (initOptions e) = given (ccNumShards c) 10 ∧ 0 < given (ccNumShards c) 10 ∧
  StoreShards (initOptions e) = given (ccStoreShards c) 10 ∧ UseStore (initOptions e) = true ∧
  dict e = Some (strGiven (ccGseDict c) "../dict/dictionary.txt") ∧
  stopFile e = Some (ccStopTokenFile c) ∧
  rankers e = replicate (Z.to_nat (given (ccNumShards c) 10)) false ∧
  dbs e = (λ s, (strGiven (ccStoreEngine c) (strGiven (getenv env) "ldb"),
                 (strGiven (ccStoreFolder c) "./riot-index" +:+ "/riot." +:+ pretty s)%string))
            <$> seq 0 (Z.to_nat (given (ccStoreShards c) 10)) ∧
  (∃ bm, indexers e = replicate (Z.to_nat (given (ccNumShards c) 10)) (mkIx DocIdsIndex 300000 bm, 300000, 600000)) ∧
  (∀ call, call ∈ [NSearch; NAdd; NDelete] → netStep st call = Ok st) ∧
  (∀ env2 c2, netStep st (NInit env2 c2) = Fatal).
Proof.
  intros H. cbn [netStep] in H. set (p := fresh (dom (hIx (nHeap netStart)))) in *.
  match type of H with rbind (EngInit _ _ ?o ?hh) _ = _ => set (opts := o) in *; set (h0 := hh) in * end.
  destruct (EngInit env (nCom netStart) opts h0) as [[e' h']| |] eqn:E; cbn [rbind fst snd] in H; [|done|done].
  injection H as <-. cbn [nCom].
  assert (Hv : validPtrs opts h0).
  { assert (p ∉ dom (hIx (nHeap netStart))) as Hf by apply is_fresh. apply not_elem_of_dom in Hf.
    split; [|split; [|split]].
    - intros a [= <-]. subst h0. cbn [hIx]. rewrite lookup_insert. eauto.
    - done.
    - subst h0. cbn [hIx]. rewrite lookup_insert_ne; [by eexists|]. intros Ep. rewrite Ep in Hf. done.
    - by eexists. }
  assert (Hix : ixOf opts h0 = Some (mkIx DocIdsIndex 0 None)).
  { unfold ixOf. subst h0. cbn [IndexerOptsP opts comOpts default hIx]. subst opts. cbn [IndexerOptsP comOpts].
    by rewrite lookup_insert. }
  destruct (start_both env (nCom netStart) opts h0 _ Hv Hix) as [_ S]. destruct (S _ _ E) as [C U].
  assert (HU : usesStore env opts) by (by left).
  pose proof (su_numbers _ _ _ _ _ U) as N. unfold numbersOf, defaultNumbers in N. cbn in N.
  injection N as _ N2 _ _ _ _ N7.
  assert (G : ∀ v, given (if v =? 0 then 10 else v) 8 = given v 10).
  { intros v. unfold given. destruct (Z.eqb_spec v 0) as [->|Hne]; [done|]. repeat case_decide; done. }
  rewrite G in N2, N7.
  split; [apply (su_init _ _ _ _ _ U)|]. split; [done|].
  split. { destruct C as (_ & _ & C & _). subst opts. cbn in C. rewrite G in C.
    pose proof (given_nz (ccNumShards c) 10 ltac:(lia)). lia. }
  split; [done|]. split; [by apply (su_use _ _ _ _ _ U)|].
  assert (K : ∀ s d, (if seqb s "" then d else s) = strGiven s d).
  { intros s d. unfold strGiven, seqb. destruct (String.eqb_spec s ""); by case_decide. }
  split. { rewrite (su_dict _ _ _ _ _ U). cbn. rewrite K. destruct (decide (false = false ∧ false = false)) as [|[]]; [|done].
    f_equal. case_decide as D; [|done]. unfold strGiven in D. case_decide; [done|done]. }
  split; [by rewrite (su_stop _ _ _ _ _ U)|].
  split. { rewrite (su_rk _ _ _ _ _ U). cbn. by rewrite G. }
  split. { rewrite (proj1 (su_dbs _ _ _ _ _ U HU)). cbn [StoreShards opts comOpts]. subst opts. cbn [StoreShards comOpts].
    rewrite G. apply list_fmap_ext. intros i s _. unfold storeOf, pathOf, folderOf. cbn [StoreEngine UseStore StoreFolder comOpts].
    rewrite K. unfold strGiven. repeat case_decide; try done; congruence. }
  split. { destruct (su_ix _ _ _ _ _ U) as [bm ->]. exists bm. cbn [oType oCache]. subst opts. cbn [NumShards comOpts]. by rewrite G. }
  pose proof (su_init _ _ _ _ _ U) as Hi. split.
  - intros call Hc. rewrite !elem_of_cons, elem_of_nil in Hc. destruct Hc as [->|[->|[->|[]]]]; cbn; by rewrite Hi.
  - intros env2 c2. cbn [netStep nCom nHeap nGrpc].
    rewrite (proj1 (second_lem _ _ _ _ _ _ E)). done.
Qed.
