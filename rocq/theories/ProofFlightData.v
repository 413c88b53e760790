(** What concurrent searches answer. *)
From Verif Require Import ModelFlight SpecFlight ProofFlight.

(** * Moments *)
Lemma nowAt_seen ws i sh : nowAt ws i = Some sh → seen ws i (moment ws) (moment ws) sh.
Proof.
  unfold nowAt, seen, moment. destruct (last ws) as [w|] eqn:E; [|done]. cbn. intros H. exists (length ws - 1)%nat, w.
  rewrite last_lookup in E. replace (length ws - 1)%nat with (pred (length ws)) by lia. auto.
Qed.
Lemma seen_mono ws ws' i t1 t2 t1' t2' sh : ws `prefix_of` ws' → (t1' <= t1)%nat → (t2 <= t2')%nat →
  seen ws i t1 t2 sh → seen ws' i t1' t2' sh.
Proof.
  intros [k ->] H1 H2 (t & w & Ht & Hw & Hi). exists t, w. split; [lia|]. split; [|done]. by apply lookup_app_l_Some.
Qed.
Lemma moment_mono ws ws' : ws `prefix_of` ws' → (moment ws <= moment ws')%nat.
Proof. intros [k ->]. unfold moment. rewrite app_length. lia. Qed.
Lemma sorted_snoc l x : StronglySorted le l → Forall (λ y, (y <= x)%nat) l → StronglySorted le (l ++ [x]).
Proof.
  induction 1 as [|y l H IH Hy]; cbn; intros Hx; [repeat constructor|]. apply Forall_cons in Hx as [? ?]. constructor; [by apply IH|].
  apply Forall_app. split; [done|]. by apply Forall_singleton.
Qed.

Section Data.
  Context (log2 : F → F) (sortBy : (ScoredDoc → ScoredDoc → bool) → list ScoredDoc → list ScoredDoc).
  Context (n : nat) (cap : schan → nat).
  Notation fstep := (fstep log2 sortBy n cap).
  Notation answered := (answered_between log2 sortBy).

  Definition looked (ws : list (list Shard)) (i : nat) (req : SearchReq) (t0 t2 t : nat) (docs : list IndexedDoc) (num : Z) : Prop :=
    (t0 <= t <= t2)%nat ∧ ∃ sh, seen ws i t t sh ∧
      Lookup log2 (shIx sh) (rqTokens req) (rqLabels req) (rqDocIds req) (rqCountOnly req) (Some (rqLogic req)) = Some (docs, num).
  Definition ranked (req : SearchReq) (docs : list IndexedDoc) : Prop :=
    rqCountOnly req = false ∧ docs ≠ [] ∧ rqOrderless req = false.
  Definition judgedAt (ws : list (list Shard)) (i t t2 : nat) (judges : list (IndexedDoc * Shard)) : Prop :=
    ∃ ts, StronglySorted le ts ∧ Forall2 (λ (x : IndexedDoc * Shard) u, (t <= u <= t2)%nat ∧ seen ws i u u x.2) judges ts.
  Definition scanned (ws : list (list Shard)) (i : nat) (req : SearchReq) (t0 t2 : nat) (rest : list IndexedDoc) (acc : list ScoredDoc * Z) : Prop :=
    ∃ t docs num judges, looked ws i req t0 t2 t docs num ∧ ranked req docs ∧ docs = judges.*1 ++ rest ∧
      judgedAt ws i t t2 judges ∧
      acc = (omap (judged (rqOpts req)) judges, zlen (omap (judged (rqOpts req)) judges)).

  Lemma looked_mono ws ws' i req t0 t2 t2' t docs num : ws `prefix_of` ws' → (t2 <= t2')%nat →
    looked ws i req t0 t2 t docs num → looked ws' i req t0 t2' t docs num.
  Proof. intros Hw H (Ht & sh & Hs & HL). split; [lia|]. exists sh. split; [|done]. by eapply seen_mono. Qed.
  Lemma judgedAt_mono ws ws' i t t2 t2' js : ws `prefix_of` ws' → (t2 <= t2')%nat →
    judgedAt ws i t t2 js → judgedAt ws' i t t2' js.
  Proof.
    intros Hw H (ts & Hts & HF). exists ts. split; [done|]. eapply Forall2_impl; [exact HF|].
    cbn. intros x u [? ?]. split; [lia|]. by eapply seen_mono.
  Qed.
  Lemma scanned_mono ws ws' i req t0 t2 t2' rest acc : ws `prefix_of` ws' → (t2 <= t2')%nat →
    scanned ws i req t0 t2 rest acc → scanned ws' i req t0 t2' rest acc.
  Proof.
    intros Hw H (t & docs & num & js & H1 & H2 & H3 & H4 & H5). exists t, docs, num, js.
    split; [by eapply looked_mono|]. split; [done|]. split; [done|]. split; [by eapply judgedAt_mono|done].
  Qed.
  Lemma answered_mono ws ws' i req t0 t2 t2' rp : ws `prefix_of` ws' → (t2 <= t2')%nat →
    answered ws i req t0 t2 rp → answered ws' i req t0 t2' rp.
  Proof.
    intros Hw H (t & sh & docs & num & Ht & Hs & HL & Hr). exists t, sh, docs, num. split; [lia|].
    split; [by eapply seen_mono|]. split; [done|]. destruct (rqCountOnly req); [done|]. destruct docs as [|d docs]; [done|].
    destruct (rqOrderless req); [done|]. destruct Hr as (js & page & H1 & H2 & H3). exists js, page. split; [done|].
    split; [|done]. by apply (judgedAt_mono ws ws' i t t2 t2' js).
  Qed.

  Lemma rankStep_judged o sh out num d :
    rankStep (shRk sh) (shardOpts o) false (out, num) d =
      (out ++ omap (judged o) [(d, sh)], num + zlen (omap (judged o) [(d, sh)])).
  Proof.
    unfold rankStep. cbn [omap list_omap]. unfold judged. destruct (rDocs (shRk sh) !! ixDocId d).
    2:{ cbn. by rewrite app_nil_r, Z.add_0_r. }
    change (ScoringCriteria (shardOpts o)) with (ScoringCriteria o).
    destruct (ScoringCriteria o d _) as [|s l]; cbn; [by rewrite app_nil_r, Z.add_0_r|].
    change (zlen (s :: l)) with (Z.of_nat (S (length l))). rewrite (proj2 (Z.ltb_lt _ _)) by lia. done.
  Qed.
  Lemma scan_step ws i req t0 d rest acc sh : scanned ws i req t0 (moment ws) (d :: rest) acc → nowAt ws i = Some sh →
    scanned ws i req t0 (moment ws) rest (rankStep (shRk sh) (shardOpts (rqOpts req)) (rqCountOnly req) acc d).
  Proof.
    intros (t & docs & num & js & H1 & H2 & H3 & (ts & H4 & H5) & ->) Hn%nowAt_seen. exists t, docs, num, (js ++ [(d, sh)]).
    split; [done|]. split; [done|]. split; [by rewrite H3, fmap_app, <- (assoc_L (++))|]. split.
    - exists (ts ++ [moment ws]). split.
      + apply sorted_snoc; [done|]. apply Forall_forall. intros u Hu. apply elem_of_list_lookup in Hu as [k Hk].
        destruct (Forall2_lookup_r _ _ _ _ _ H5 Hk) as (x & _ & ? & _). lia.
      + apply Forall2_app; [done|]. constructor; [|done]. cbn. split; [destruct H1; lia|done].
    - destruct H2 as (-> & _). rewrite rankStep_judged, omap_app. unfold zlen. rewrite app_length. f_equal. lia.
  Qed.
  Lemma scan_done ws i req t0 t2 acc rp : scanned ws i req t0 t2 [] acc → rankPage sortBy req acc = Some rp →
    answered ws i req t0 t2 rp.
  Proof.
    intros (t & docs & num & js & (Ht & sh & Hs & HL) & (H2 & H3 & H4) & H5 & H6 & ->) Hp. rewrite app_nil_r in H5.
    exists t, sh, docs, num. split; [done|]. split; [done|]. split; [done|]. rewrite H2. destruct docs as [|d docs]; [done|].
    rewrite H4. unfold rankPage in Hp. rewrite H2 in Hp.
    destruct (maxOutput _ _) as [a b] eqn:E in Hp.
    destruct (zslice _ a b) as [page|] eqn:Ez in Hp; [|done]. cbn in Hp. injection Hp as <-. exists js, page.
    split; [done|]. split; [exact H6|]. cbn.
    change (ReverseOrder (shardOpts (rqOpts req))) with (ReverseOrder (rqOpts req)) in *. rewrite E. cbn. by rewrite Ez.
  Qed.
  Lemma lookup_done ws i c req t0 t2 t docs num p : looked ws i req t0 t2 t docs num →
    afterLookup i c req docs num = p →
    (∃ rp, p = WLookReply i c rp ∧ answered ws i req t0 t2 rp) ∨ p = WLookDocs i c req docs ∧ ranked req docs.
  Proof.
    intros (Ht & sh & Hs & HL) <-. unfold afterLookup, ranked.
    assert (HA : ∀ rp, (if rqCountOnly req then rp = mkReply None num
       else match docs with [] => rp = mkReply None 0
            | _ :: _ => if rqOrderless req then rp = mkReply (Some (bareEntry <$> docs)) (zlen docs) else False end) →
       answered ws i req t0 t2 rp).
    { intros rp Hrp. exists t, sh, docs, num. split; [done|]. split; [done|]. split; [done|].
      destruct (rqCountOnly req); [done|]. destruct docs; [done|]. by destruct (rqOrderless req). }
    destruct (rqCountOnly req); [left; eexists; split; [done|]; by apply HA|].
    destruct docs as [|d docs]; [left; eexists; split; [done|]; by apply HA|].
    rewrite (proj2 (Z.eqb_neq (zlen (d :: docs)) 0)) by (unfold zlen; cbn; lia).
    destruct (rqOrderless req); [left; eexists; split; [done|]; by apply HA|]. by right.
  Qed.

  (** * The invariant *)
  Definition gotOk (ws : list (list Shard)) (req : SearchReq) (t0 t2 : nat) (e : option (nat * Reply)) : Prop :=
    match e with None => 0 < rqTimeout req | Some (i, rp) => answered ws i req t0 t2 rp end.
  Definition pdata (ws : list (list Shard)) (reqs : list (SearchReq * nat)) (p : spc) : Prop :=
    match p with
    | PSend c req _ _ | WLookGot _ c req => ∃ t0, reqs !! c = Some (req, t0) ∧ (t0 <= moment ws)%nat
    | PGather c req got _ => ∃ t0, reqs !! c = Some (req, t0) ∧ (t0 <= moment ws)%nat ∧ Forall (gotOk ws req t0 (moment ws)) got
    | WLookReply i c rp | WRankReply i c rp => ∃ req t0, reqs !! c = Some (req, t0) ∧ answered ws i req t0 (moment ws) rp
    | WLookDocs i c req docs => ∃ t0 t num, reqs !! c = Some (req, t0) ∧ looked ws i req t0 (moment ws) t docs num ∧ ranked req docs
    | WRankScan i c req rest acc => ∃ t0, reqs !! c = Some (req, t0) ∧ scanned ws i req t0 (moment ws) rest acc
    | PIdle _ | WLook _ | WRank _ => True
    end.
  Definition mdata (ws : list (list Shard)) (reqs : list (SearchReq * nat)) (x : schan * smsg) : Prop :=
    match x with
    | (KLook i, MLook c req) => ∃ t0, reqs !! c = Some (req, t0) ∧ (t0 <= moment ws)%nat
    | (KRank i, MDocs c req docs) => ∃ t0 t num, reqs !! c = Some (req, t0) ∧ looked ws i req t0 (moment ws) t docs num ∧ ranked req docs
    | (KReply c, MReply i rp) => ∃ req t0, reqs !! c = Some (req, t0) ∧ answered ws i req t0 (moment ws) rp
    | _ => True
    end.
  Definition adata (ws : list (list Shard)) (reqs : list (SearchReq * nat)) (a : fanswer) : Prop :=
    ∃ req t0, reqs !! faSearch a = Some (req, t0) ∧ (t0 <= faEnd a <= moment ws)%nat ∧
      Forall (gotOk ws req t0 (faEnd a)) (faGot a) ∧ Ranks sortBy req (heard (faGot a)) = Some (faResp a).
  Record dinv (s : fstate) : Prop := {
    di_procs : Forall (pdata (fWorlds s) (fReqs s)) (fProcs s);
    di_msgs : Forall (mdata (fWorlds s) (fReqs s)) (fNet s);
    di_ans : Forall (adata (fWorlds s) (fReqs s)) (fAnswers s)
  }.

  Lemma gotOk_mono ws ws' req t0 t2 t2' e : ws `prefix_of` ws' → (t2 <= t2')%nat →
    gotOk ws req t0 t2 e → gotOk ws' req t0 t2' e.
  Proof. destruct e as [[i rp]|]; [|done]. apply answered_mono. Qed.
  Lemma pdata_mono ws ws' reqs reqs' p : ws `prefix_of` ws' → reqs `prefix_of` reqs' → pdata ws reqs p → pdata ws' reqs' p.
  Proof.
    intros Hw [k ->]. pose proof (moment_mono _ _ Hw) as Hm.
    assert (HR : ∀ c x, reqs !! c = Some x → (reqs ++ k) !! c = Some x) by (intros; by apply lookup_app_l_Some).
    destruct p; cbn; try done.
    - intros (t0 & ? & ?). exists t0. split; [auto|lia].
    - intros (t0 & ? & ? & HF). exists t0. split; [auto|]. split; [lia|]. eapply Forall_impl; [exact HF|]. intros e. by apply gotOk_mono.
    - intros (t0 & ? & ?). exists t0. split; [auto|lia].
    - intros (r & t0 & ? & ?). exists r, t0. split; [auto|]. by eapply answered_mono.
    - intros (t0 & t & num & ? & ? & ?). exists t0, t, num. split; [auto|]. split; [by eapply looked_mono|done].
    - intros (t0 & ? & ?). exists t0. split; [auto|]. by eapply scanned_mono.
    - intros (r & t0 & ? & ?). exists r, t0. split; [auto|]. by eapply answered_mono.
  Qed.
  Lemma mdata_mono ws ws' reqs reqs' x : ws `prefix_of` ws' → reqs `prefix_of` reqs' → mdata ws reqs x → mdata ws' reqs' x.
  Proof.
    intros Hw [k ->]. pose proof (moment_mono _ _ Hw) as Hm.
    assert (HR : ∀ c x, reqs !! c = Some x → (reqs ++ k) !! c = Some x) by (intros; by apply lookup_app_l_Some).
    destruct x as [[] []]; cbn; try done.
    - intros (t0 & ? & ?). exists t0. split; [auto|lia].
    - intros (t0 & t & num & ? & ? & ?). exists t0, t, num. split; [auto|]. split; [by eapply looked_mono|done].
    - intros (r & t0 & ? & ?). exists r, t0. split; [auto|]. by eapply answered_mono.
  Qed.
  Lemma adata_mono ws ws' reqs reqs' a : ws `prefix_of` ws' → reqs `prefix_of` reqs' → adata ws reqs a → adata ws' reqs' a.
  Proof.
    intros Hw [k ->] (req & t0 & H1 & H2 & H3 & H4). pose proof (moment_mono _ _ Hw). exists req, t0.
    split; [by apply lookup_app_l_Some|]. split; [lia|]. split; [|done]. eapply Forall_impl; [exact H3|].
    intros e. by apply gotOk_mono.
  Qed.
  Lemma dinv_mono ws ws' reqs reqs' ps net ans : ws `prefix_of` ws' → reqs `prefix_of` reqs' →
    Forall (pdata ws reqs) ps ∧ Forall (mdata ws reqs) net ∧ Forall (adata ws reqs) ans →
    Forall (pdata ws' reqs') ps ∧ Forall (mdata ws' reqs') net ∧ Forall (adata ws' reqs') ans.
  Proof.
    intros Hw Hr (H1 & H2 & H3). repeat split; eapply Forall_impl; try done.
    - intros. by eapply pdata_mono.
    - intros. by eapply mdata_mono.
    - intros. by eapply adata_mono.
  Qed.

  Ltac splitNet Hm := subst;
    apply Forall_app in Hm as [Hma Hmb]; apply Forall_cons in Hmb as [Hmx Hmb].
  Lemma mv_data s p p' net reqs ans : mv log2 sortBy n s p (SStep p' net reqs ans) →
    pdata (fWorlds s) (fReqs s) p → Forall (mdata (fWorlds s) (fReqs s)) (fNet s) → Forall (adata (fWorlds s) (fReqs s)) (fAnswers s) →
    fReqs s `prefix_of` reqs ∧ pdata (fWorlds s) reqs p' ∧ Forall (mdata (fWorlds s) reqs) net ∧ Forall (adata (fWorlds s) reqs) ans.
  Proof.
    intros H Hp Hm Ha. destruct s as [ps nt rs ws an cr]. cbn in *.
    inversion H; subst; clear H; cbn [fNet fReqs fWorlds fAnswers] in *;
      try (split; [done|]); rewrite ?Forall_app, ?Forall_singleton.
    - split; [by apply prefix_app_r|]. split.
      + exists (moment ws). split; [|lia]. by rewrite lookup_app_r, Nat.sub_diag by lia.
      + assert (HP : rs `prefix_of` rs ++ [(req, moment ws)]) by by apply prefix_app_r. split.
        * eapply Forall_impl; [exact Hm|]. intros x Hx. by apply (mdata_mono ws ws rs).
        * eapply Forall_impl; [exact Ha|]. intros x Hx. by apply (adata_mono ws ws rs).
    - destruct Hp as (t0 & ? & ?). split; [by exists t0|]. split; [|done]. split; [done|]. by exists t0.
    - destruct Hp as (t0 & ? & ?). split; [|done]. exists t0. auto.
    - destruct Hp as (t0 & ? & ? & HF). split; [|done]. exists t0. split; [done|]. split; [done|].
      rewrite Forall_app, Forall_singleton. done.
    - destruct Hp as (t0 & E0 & ? & HF). splitNet Hm. destruct Hmx as (r & t1 & E1 & HA). rewrite E0 in E1. injection E1 as <- <-.
      split; [|done]. exists t0. split; [done|]. split; [done|]. rewrite Forall_app, Forall_singleton. done.
    - destruct Hp as (t0 & E0 & ? & HF). split; [done|]. split; [done|]. split; [done|]. exists req, t0. auto with lia.
    - splitNet Hm. done.
    - destruct Hp as (t0 & E0 & E1).
      destruct (lookup_done ws i c req t0 (moment ws) (moment ws) docs num _ ltac:(split; [lia|]; exists sh; split; [by apply nowAt_seen|done]) eq_refl)
        as [(rp & -> & HA)|[-> Hr]].
      + split; [|done]. by exists req, t0.
      + split; [|done]. exists t0, (moment ws), num. split; [done|]. split; [|done]. split; [lia|]. exists sh. split; [by apply nowAt_seen|done].
    - destruct Hp as (r & t0 & ? & ?). split; [done|]. split; [|done]. split; [done|]. by exists r, t0.
    - destruct Hp as (t0 & t & num & ? & ? & ?). split; [done|]. split; [|done]. split; [done|]. by exists t0, t, num.
    - splitNet Hm. destruct Hmx as (t0 & t & num & ? & HL & ?). split; [|done]. exists t0. split; [done|].
      exists t, docs, num, []. split; [done|]. split; [done|]. split; [done|]. split; [|done]. exists []. split; constructor.
    - destruct Hp as (t0 & ? & ?). split; [|done]. exists t0. split; [done|]. by apply scan_step.
    - destruct Hp as (t0 & ? & ?). split; [|done]. exists req, t0. split; [done|]. by eapply scan_done.
    - destruct Hp as (r & t0 & ? & ?). split; [done|]. split; [|done]. split; [done|]. by exists r, t0.
  Qed.

  Lemma dinv_step l s s' : dinv s → fstep l s = Some s' → dinv s'.
  Proof.
    intros [H1 H2 H3]. unfold ModelFlight.fstep. destruct (fCrash s); [done|]. destruct l as [k late|i sh].
    2:{ destruct (last (fWorlds s)); [|done]. cbn. intros [= <-].
        destruct (dinv_mono (fWorlds s) (fWorlds s ++ [<[i:=sh]> l]) (fReqs s) (fReqs s) (fProcs s) (fNet s) (fAnswers s)) as (?&?&?);
          [by apply prefix_app_r|done|done|]. by constructor. }
    destruct (fProcs s !! k) as [p|] eqn:Ek; [|done]. cbn. destruct (fproc _ _ _ _ late p s) as [r|] eqn:Er; [|done]. cbn.
    intros [= <-]. apply fproc_mv in Er. destruct r as [p' net reqs ans|]; [|by constructor].
    assert (Hp : pdata (fWorlds s) (fReqs s) p). { rewrite Forall_lookup in H1. by apply (H1 k). }
    destruct (mv_data _ _ _ _ _ _ Er Hp H2 H3) as (Hr & Hp' & Hm' & Ha').
    constructor; cbn; [|done..]. apply Forall_insert; [|done]. eapply Forall_impl; [exact H1|]. intros. by eapply pdata_mono.
  Qed.
  Lemma dinv_init programs tl tr shards : dinv (fInit n programs tl tr shards).
  Proof.
    constructor; try by constructor. apply Forall_forall. intros p Hp.
    destruct (init_procs n programs tl tr p Hp) as [(t & -> & _)|(i & Hi & [->| ->])]; done.
  Qed.
  Lemma dinv_run ls s s' : dinv s → frun log2 sortBy n cap ls s = Some s' → dinv s'.
  Proof.
    revert s. induction ls as [|l ls IH]; intros s H; cbn; [by intros [= <-]|].
    destruct (fstep l s) as [s1|] eqn:E; [|done]. cbn. apply IH. by eapply dinv_step.
  Qed.
End Data.
