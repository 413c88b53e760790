(** Proofs about options and start-up. *)
From Verif Require Import ModelStart SpecStart.
Open Scope Z_scope.

Lemma orDef_given d v : orDef d v = given v d.
Proof. unfold orDef, given. destruct (Z.eqb_spec v 0), (decide (v = 0)); done. Qed.
Lemma given_given v d : given (given v d) d = given v d.
Proof. unfold given. repeat case_decide; done. Qed.
Lemma given_nz v d : d ≠ 0 → given v d ≠ 0.
Proof. unfold given. case_decide; done. Qed.

Lemma optsInit_inv cpu o h o' h' :
  OptsInit cpu o h = Some (o', h') →
  ∃ ix rk drk, ixOf o h = Some ix ∧ rkOf o h = Some rk ∧ hRk h !! 0%nat = Some drk ∧
    hIx h' = match oBM ix with
             | None => <[default 0%nat (IndexerOptsP o) := mkIx (oType ix) (oCache ix) (Some 0%nat)]> (hIx h)
             | Some _ => hIx h end ∧
    hBM h' = hBM h ∧
    hRk h' = match oCrit rk with
             | None => <[default 0%nat (DefRankOptsP o) := mkRk (oCrit drk) (oReverse rk) (oOffset rk) (oMax rk)]> (hRk h)
             | Some _ => hRk h end ∧
    otherFields o' = otherFields o ∧
    numbersOf o' = zip_with given (numbersOf o) (defaultNumbers cpu) ∧
    IndexerOptsP o' = Some (default 0%nat (IndexerOptsP o)) ∧
    DefRankOptsP o' = Some (default 0%nat (DefRankOptsP o)).
Proof.
  unfold OptsInit, ixOf, rkOf, defAddr. intros H.
  assert (Ep : ∀ p : option addr, match p with None => 0%nat | Some a => a end = default 0%nat p) by (intros []; reflexivity).
  rewrite !Ep in H.
  destruct (hIx h !! default 0%nat (IndexerOptsP o)) as [ix|] eqn:E1; [|done]. cbn in H.
  set (h1 := match oBM ix with None => _ | Some _ => h end) in *.
  assert (hRk h1 = hRk h) as R1 by (subst h1; by destruct (oBM ix)).
  assert (hBM h1 = hBM h) as R2 by (subst h1; by destruct (oBM ix)).
  rewrite R1 in H.
  destruct (hRk h !! default 0%nat (DefRankOptsP o)) as [rk|] eqn:E2; [|done]. cbn in H.
  destruct (hRk h !! 0%nat) as [drk|] eqn:E3; [|done]. cbn in H.
  exists ix, rk, drk. injection H as <- <-.
  split; [done|]. split; [done|]. split; [done|].
  split.
  { transitivity (hIx h1); [by destruct (oCrit rk)|]. subst h1. by destruct (oBM ix). }
  split. { transitivity (hBM h1); [by destruct (oCrit rk)|done]. }
  split. { rewrite <- ?R1. by destruct (oCrit rk). }
  split; [done|]. split; [|done].
  unfold numbersOf, defaultNumbers. cbn. by rewrite !orDef_given.
Qed.

Lemma optsInit_total cpu o h : validPtrs o h → is_Some (OptsInit cpu o h).
Proof.
  intros (Hi & Hr & Hi0 & Hr0). unfold OptsInit, defAddr.
  destruct (hIx h !! match IndexerOptsP o with None => 0%nat | Some a => a end) as [ix|] eqn:E1.
  2:{ destruct (IndexerOptsP o) as [a|]; [destruct (Hi a eq_refl)|destruct Hi0]; congruence. }
  cbn. set (h1 := match oBM ix with None => _ | Some _ => h end).
  assert (hRk h1 = hRk h) as -> by (subst h1; by destruct (oBM ix)).
  destruct (hRk h !! match DefRankOptsP o with None => 0%nat | Some a => a end) as [rk|] eqn:E2.
  2:{ destruct (DefRankOptsP o) as [a|]; [destruct (Hr a eq_refl)|destruct Hr0]; congruence. }
  cbn. destruct Hr0 as [d Hd]. rewrite Hd. cbn. eauto.
Qed.

(** field-wise result *)
Lemma fields_lem cpu o h o' h' :
  OptsInit cpu o h = Some (o', h') →
  otherFields o' = otherFields o ∧
  numbersOf o' = zip_with given (numbersOf o) (defaultNumbers cpu) ∧
  IndexerOptsP o' = Some (default 0%nat (IndexerOptsP o)) ∧
  DefRankOptsP o' = Some (default 0%nat (DefRankOptsP o)).
Proof. intros H. by destruct (optsInit_inv _ _ _ _ _ H) as (ix & rk & drk & _ & _ & _ & _ & _ & _ & ?). Qed.

Lemma objects_lem cpu o h o' h' :
  OptsInit cpu o h = Some (o', h') →
  hBM h' = hBM h ∧
  (∀ a v, hIx h !! a = Some v → ∃ v', hIx h' !! a = Some v' ∧
     oType v' = oType v ∧ oCache v' = oCache v ∧
     oBM v' = if decide (oBM v = None ∧ a = default 0%nat (IndexerOptsP o)) then Some 0%nat else oBM v) ∧
  (∀ a v, hRk h !! a = Some v → ∃ v', hRk h' !! a = Some v' ∧
     oReverse v' = oReverse v ∧ oOffset v' = oOffset v ∧ oMax v' = oMax v ∧
     oCrit v' = if decide (oCrit v = None ∧ a = default 0%nat (DefRankOptsP o))
                then hRk h !! 0%nat ≫= oCrit else oCrit v) ∧
  dom (hIx h') = dom (hIx h) ∧ dom (hRk h') = dom (hRk h).
Proof.
  intros H. destruct (optsInit_inv _ _ _ _ _ H) as (ix & rk & drk & Ei & Er & Ed & Hi & Hb & Hr & _).
  unfold ixOf, rkOf in *. split; [done|]. split; [|split; [|split]].
  - intros a v Ha. rewrite Hi. destruct (oBM ix) as [b|] eqn:Eb.
    + exists v. split; [done|]. split; [done|]. split; [done|].
      destruct (decide _) as [[E ->]|]; [|done]. congruence.
    + destruct (decide (a = default 0%nat (IndexerOptsP o))) as [->|Hne].
      * rewrite lookup_insert. eexists. split; [done|]. cbn. assert (v = ix) as -> by congruence.
        split; [done|]. split; [done|]. destruct (decide _) as [|n]; [done|]. by destruct n.
      * rewrite lookup_insert_ne by done. exists v. split; [done|]. split; [done|]. split; [done|].
        destruct (decide _) as [[_ E]|]; [done|done].
  - intros a v Ha. rewrite Hr. destruct (oCrit rk) as [b|] eqn:Eb.
    + exists v. do 4 (split; [done|]).
      destruct (decide _) as [[E ->]|]; [|done]. congruence.
    + destruct (decide (a = default 0%nat (DefRankOptsP o))) as [->|Hne].
      * rewrite lookup_insert. eexists. split; [done|]. cbn. assert (v = rk) as -> by congruence.
        do 3 (split; [done|]). destruct (decide _) as [|n]; [by rewrite Ed|]. by destruct n.
      * rewrite lookup_insert_ne by done. exists v. do 4 (split; [done|]).
        destruct (decide _) as [[_ E]|]; [done|done].
  - rewrite Hi. destruct (oBM ix); [done|]. rewrite dom_insert_L.
    assert (default 0%nat (IndexerOptsP o) ∈ dom (hIx h)) by (by apply elem_of_dom). set_solver.
  - rewrite Hr. destruct (oCrit rk); [done|]. rewrite dom_insert_L.
    assert (default 0%nat (DefRankOptsP o) ∈ dom (hRk h)) by (by apply elem_of_dom). set_solver.
Qed.

(** an object whose fields are set is not written *)
Lemma ix_keep cpu o h o' h' a v b :
  OptsInit cpu o h = Some (o', h') → hIx h !! a = Some v → oBM v = Some b → hIx h' !! a = Some v.
Proof.
  intros H Ha Hb. destruct (objects_lem _ _ _ _ _ H) as (_ & Hi & _).
  destruct (Hi a v Ha) as ([t c m] & Ha' & Ht & Hc & Hm). rewrite Ha'. f_equal. destruct v as [t' c' m'].
  cbn in *. subst. case_decide as D; [by destruct D|done].
Qed.
Lemma rk_keep cpu o h o' h' a v b :
  OptsInit cpu o h = Some (o', h') → hRk h !! a = Some v → oCrit v = Some b → hRk h' !! a = Some v.
Proof.
  intros H Ha Hb. destruct (objects_lem _ _ _ _ _ H) as (_ & _ & Hi & _).
  destruct (Hi a v Ha) as ([c r f m] & Ha' & Ht & Hc & Hm & Hk). rewrite Ha'. f_equal.
  destruct v as [c' r' f' m']. cbn in *. subst. case_decide as D; [by destruct D|done].
Qed.

(** after Init nothing the engine needs is nil *)
Lemma set_lem cpu o h o' h' :
  OptsInit cpu o h = Some (o', h') → defaultScores h →
  (∃ ix b, ixOf o' h' = Some ix ∧ oBM ix = Some b) ∧ (∃ rk c, rkOf o' h' = Some rk ∧ oCrit rk = Some c) ∧
  defaultScores h'.
Proof.
  intros H (dv & dc & Hd & Hdc).
  pose proof (optsInit_inv _ _ _ _ _ H) as (ix & rk & drk & Ei & Er & Ed & _ & _ & _ & _ & _ & Pi & Pr).
  pose proof (objects_lem _ _ _ _ _ H) as (_ & Hi & Hr & _).
  unfold ixOf, rkOf in *. rewrite Pi, Pr. cbn [default from_option id].
  split; [|split].
  - destruct (Hi _ _ Ei) as (v' & Ev & _ & _ & Eb). exists v'. rewrite Eb.
    case_decide as D; [by exists 0%nat|]. destruct (oBM ix) as [b|] eqn:E; [by exists b|].
    exfalso. by apply D.
  - destruct (Hr _ _ Er) as (v' & Ev & _ & _ & _ & Eb). exists v'. rewrite Eb.
    case_decide as D; [rewrite Hd; cbn; by exists dc|]. destruct (oCrit rk) as [b|] eqn:E; [by exists b|].
    exfalso. by apply D.
  - exists dv, dc. split; [|done]. eapply rk_keep; eauto.
Qed.

Lemma optsInit_fix cpu o h ix rk b c a1 a2 :
  IndexerOptsP o = Some a1 → DefRankOptsP o = Some a2 →
  hIx h !! a1 = Some ix → hRk h !! a2 = Some rk → oBM ix = Some b → oCrit rk = Some c →
  is_Some (hRk h !! 0%nat) →
  numbersOf o = zip_with given (numbersOf o) (defaultNumbers cpu) →
  OptsInit cpu o h = Some (o, h).
Proof.
  intros P1 P2 E1 E2 B1 C2 [d Hd] N. unfold OptsInit, defAddr. rewrite P1, E1. cbn.
  rewrite B1, P2, E2. cbn. rewrite Hd. cbn. rewrite C2. rewrite !orDef_given.
  unfold numbersOf, defaultNumbers in N. cbn in N. destruct o. cbn in *. subst.
  injection N as N1 N2 N3 N4 N5 N6 N7. by rewrite <- N1, <- N2, <- N3, <- N4, <- N5, <- N6, <- N7.
Qed.

Lemma idem_lem cpu o h o' h' :
  defaultScores h → OptsInit cpu o h = Some (o', h') → OptsInit cpu o' h' = Some (o', h').
Proof.
  intros Hs H. destruct (set_lem _ _ _ _ _ H Hs) as ((ix & b & Ei & Eb) & (rk & c & Er & Ec) & Hs').
  destruct (fields_lem _ _ _ _ _ H) as (_ & Hn & Pi & Pr).
  unfold ixOf, rkOf in *. rewrite Pi in Ei. rewrite Pr in Er.
  eapply optsInit_fix; eauto.
  - destruct Hs' as (v & ? & ? & _). by exists v.
  - rewrite Hn. unfold numbersOf, defaultNumbers. cbn. by rewrite !given_given.
Qed.

(** later initialisations do not reach an initialised engine *)
Lemma later_lem cpu o h o' h' os :
  defaultScores h → OptsInit cpu o h = Some (o', h') →
  effective o' (foldl (hstep cpu) h' (HInit <$> os)) = effective o' h'.
Proof.
  intros Hs H. destruct (set_lem _ _ _ _ _ H Hs) as ((ix & b & Ei & Eb) & (rk & c & Er & Ec) & _).
  unfold effective. rewrite Ei, Er. clear H Hs.
  assert (∀ os h', ixOf o' h' = Some ix → rkOf o' h' = Some rk →
    ixOf o' (foldl (hstep cpu) h' (HInit <$> os)) = Some ix ∧
    rkOf o' (foldl (hstep cpu) h' (HInit <$> os)) = Some rk) as G.
  { clear -Eb Ec. induction os as [|p os IH]; intros h' Ei Er; [done|]. cbn.
    destruct (OptsInit cpu p h') as [[p' h2]|] eqn:E; apply IH; try done.
    - unfold ixOf in *. eapply ix_keep; eauto.
    - unfold rkOf in *. eapply rk_keep; eauto. }
  destruct (G os h' Ei Er) as [-> ->]. done.
Qed.

(** but a write through a pointer to the package's default object does *)
Lemma shared_lem cpu h o v b c rk :
  hIx h !! 0%nat = Some v → oBM v = Some b → hRk h !! 0%nat = Some rk → oCrit rk = Some c →
  IndexerOptsP o = None → DefRankOptsP o = None →
  ∃ o', OptsInit cpu o h = Some (o', h) ∧
    ∀ w wb, oBM w = Some wb →
      let h1 := hstep cpu h (HSetIx (default 0%nat (IndexerOptsP o')) w) in
      ixOf o' h1 = Some w ∧
      ∀ o2, IndexerOptsP o2 = None → DefRankOptsP o2 = None →
        ∃ o2', OptsInit cpu o2 h1 = Some (o2', h1) ∧ ixOf o2' h1 = Some w.
Proof.
  intros Ei Eb Er Ec P1 P2.
  assert (∀ h o v b rk c, hIx h !! 0%nat = Some v → oBM v = Some b → hRk h !! 0%nat = Some rk →
    oCrit rk = Some c → IndexerOptsP o = None → DefRankOptsP o = None →
    ∃ o', OptsInit cpu o h = Some (o', h) ∧ IndexerOptsP o' = Some 0%nat) as G.
  { clear. intros h o v b rk c Ei Eb Er Ec P1 P2. unfold OptsInit, defAddr.
    rewrite P1, P2, Ei. cbn. rewrite Eb, Er. cbn. rewrite Ec. by eexists. }
  destruct (G h o v b rk c) as (o' & E & P); try done.
  exists o'. split; [done|]. intros w wb Ew h1. subst h1. rewrite P. cbn [default from_option id].
  split. { unfold ixOf. rewrite P. cbn. by rewrite lookup_insert. }
  intros o2 Q1 Q2. destruct (G (hstep cpu h (HSetIx 0%nat w)) o2 w wb rk c) as (o2' & E2 & P'); try done.
  { cbn. by rewrite lookup_insert. }
  exists o2'. split; [done|]. unfold ixOf. rewrite P'. cbn. by rewrite lookup_insert.
Qed.

Lemma ixInit_lem x :
  IxInit (IxInit x) = IxInit x ∧ oType (IxInit x) = oType x ∧ oBM (IxInit x) = oBM x ∧
  oCache (IxInit x) = given (oCache x) 300000.
Proof.
  unfold IxInit. cbn. rewrite !orDef_given, given_given. done.
Qed.

Lemma searchOpts_lem o h d req :
  DefRankOptsP o ≠ None → rkOf o h = Some d →
  ∃ r, searchOpts o h req = Some r ∧
    oCrit r = (match req with Some q => match oCrit q with Some c => Some c | None => oCrit d end | None => oCrit d end) ∧
    oReverse r = oReverse (default d req) ∧ oOffset r = oOffset (default d req) ∧ oMax r = oMax (default d req).
Proof.
  intros Hp Hd. unfold searchOpts, rkOf in *. destruct (DefRankOptsP o) as [a|]; [|done].
  cbn in *. rewrite Hd. cbn. destruct req as [q|]; cbn.
  - destruct (oCrit q) eqn:E; eexists; (split; [done|]); cbn; by rewrite ?E.
  - destruct (oCrit d) eqn:E; eexists; (split; [done|]); cbn; by rewrite ?E.
Qed.

(** * Start-up *)
Lemma seqb_true a b : seqb a b = true ↔ a = b.
Proof. unfold seqb. apply String.eqb_eq. Qed.
Lemma seqb_false a b : seqb a b = false ↔ a ≠ b.
Proof. unfold seqb. apply String.eqb_neq. Qed.

Lemma newIndexers_lem n ix :
  newIndexers (S n) ix = if 0 <=? given (oCache ix) 300000
    then Ok (replicate (S n) (IxInit ix, given (oCache ix) 300000, given (oCache ix) 300000 * 2)) else Panic.
Proof.
  assert (newIndexer ix = if 0 <=? given (oCache ix) 300000
    then Ok (IxInit ix, given (oCache ix) 300000, given (oCache ix) 300000 * 2) else Panic) as E.
  { unfold newIndexer, IxInit, makeLen. cbn [oCache]. rewrite orDef_given.
    destruct (Z.ltb_spec (given (oCache ix) 300000) 0), (Z.leb_spec 0 (given (oCache ix) 300000)); try lia; [done|].
    cbn [rbind]. destruct (Z.ltb_spec (given (oCache ix) 300000 * 2) 0); [lia|]. done. }
  induction n as [|n IH].
  - cbn [newIndexers]. rewrite E. by destruct (_ <=? _).
  - cbn [newIndexers] in *. rewrite E in *. destruct (_ <=? _); [|done]. cbn [rbind] in *. by rewrite IH.
Qed.

Lemma makeChans_lem n b : n ≠ 0 →
  makeChans n b = if (0 <=? n) && (0 <=? b) then Ok (replicate (Z.to_nat n) b) else Panic.
Proof.
  intros Hn. unfold makeChans, makeLen.
  destruct (Z.ltb_spec n 0), (Z.leb_spec 0 n); try lia; [done|]. cbn [rbind andb].
  destruct (Z.ltb_spec 0 n); [|lia].
  destruct (Z.ltb_spec b 0), (Z.leb_spec 0 b); try lia; done.
Qed.

Lemma makeLen_lem n : makeLen n = if 0 <=? n then Ok (Z.to_nat n) else Panic.
Proof. unfold makeLen. destruct (Z.ltb_spec n 0), (Z.leb_spec 0 n); try lia; done. Qed.

Lemma storeName_lem env o : storeName env (StoreEngine o) = storeOf env o.
Proof.
  unfold storeName, storeOf, seqb. destruct (String.eqb_spec (StoreEngine o) ""), (decide (StoreEngine o = "")); try done.
  cbn. destruct (String.eqb_spec (getenv env) ""), (decide (getenv env = "")); done.
Qed.

Lemma opened_names env t o ss l :
  Forall2 (λ s p, OpenStore env t (dbPath (StoreFolder o) s) (StoreEngine o) = Some p) ss l →
  l = (λ s, (storeOf env o, dbPath (StoreFolder o) s)) <$> ss.
Proof.
  induction 1 as [|s p ss l Hp _ IH]; [done|]. cbn. rewrite <- IH. f_equal.
  unfold OpenStore in Hp. rewrite storeName_lem in Hp. destruct (stores _ _) as [op|]; [|done].
  destruct (op t _); [|done]. by injection Hp.
Qed.

Lemma openAll_lem env t o l :
  openAll env t o = Ok l ↔
  (l = (λ s, (storeOf env o, dbPath (StoreFolder o) s)) <$> seq 0 (Z.to_nat (StoreShards o)) ∧
   ∀ s, (s < Z.to_nat (StoreShards o))%nat →
     ∃ opens, stores env (storeOf env o) = Some opens ∧ opens t (dbPath (StoreFolder o) s) = true).
Proof.
  unfold openAll. destruct (mapM _ _) as [l'|] eqn:E.
  - apply mapM_Some in E. split.
    + injection 1 as <-. split.
      * by eapply opened_names.
      * intros s Hs. destruct (Forall2_lookup_l _ _ _ s s E) as (p & _ & Hp).
        { by apply lookup_seq. }
        unfold OpenStore in Hp. rewrite storeName_lem in Hp. destruct (stores _ _) as [op|]; [|done].
        exists op. split; [done|]. by destruct (op t _).
    + intros [-> H]. f_equal. by eapply opened_names.
  - split; [done|]. intros [_ H]. exfalso. apply mapM_None in E. apply Exists_exists in E as (s & Hs & E).
    apply elem_of_seq in Hs. destruct (H s) as (op & Eo & Ho); [lia|].
    unfold OpenStore in E. rewrite storeName_lem, Eo, Ho in E. done.
Qed.

Lemma Store_lem env o l :
  Store env o = Ok l ↔
  (l = (λ s, (storeOf env o, dbPath (StoreFolder o) s)) <$> seq 0 (Z.to_nat (StoreShards o)) ∧
   0 <= StoreShards o ∧ mkdirOk env (StoreFolder o) = true ∧
   ∀ s, (s < Z.to_nat (StoreShards o))%nat →
     ∃ opens, stores env (storeOf env o) = Some opens ∧ opens 0%nat (dbPath (StoreFolder o) s) = true
        ∧ opens 1%nat (dbPath (StoreFolder o) s) = true).
Proof.
  unfold Store. destruct (mkdirOk env (StoreFolder o)); cbn [negb]; [|split; [done|by intros (_ & _ & ? & _)]].
  rewrite makeLen_lem. destruct (Z.leb_spec 0 (StoreShards o)); cbn [rbind];
    [|split; [done|intros (_ & ? & _); lia]].
  destruct (openAll env 0 o) as [l0| |] eqn:E0; cbn [rbind].
  - pose proof (proj1 (openAll_lem _ _ _ _) E0) as [_ H0]. rewrite openAll_lem. split.
    + intros [-> H1]. split; [done|]. split; [done|]. split; [done|]. intros s Hs.
      destruct (H0 s Hs) as (op & Ho & Hp), (H1 s Hs) as (op' & Ho' & Hp').
      exists op. split; [done|]. split; [done|]. congruence.
    + intros (-> & _ & _ & H1). split; [done|]. intros s Hs.
      destruct (H1 s Hs) as (op & Ho & Hp & Hp'). eauto.
  - split; [done|]. intros (_ & _ & _ & H1). exfalso.
    assert (∃ l, openAll env 0 o = Ok l) as [? ?]; [|congruence].
    eexists. apply openAll_lem. split; [done|]. intros s Hs. destruct (H1 s Hs) as (op & Ho & Hp & Hp'). eauto.
  - split; [done|]. intros (_ & _ & _ & H1). exfalso.
    assert (∃ l, openAll env 0 o = Ok l) as [? ?]; [|congruence].
    eexists. apply openAll_lem. split; [done|]. intros s Hs. destruct (H1 s Hs) as (op & Ho & Hp & Hp'). eauto.
Qed.

(** what initDef changes *)
Lemma initDef_lem e o :
  numbersOf (initDef e o) = numbersOf o ∧
  IndexerOptsP (initDef e o) = IndexerOptsP o ∧ DefRankOptsP (initDef e o) = DefRankOptsP o ∧
  NotUseGse (initDef e o) = NotUseGse o ∧ StopTokenFile (initDef e o) = StopTokenFile o ∧
  UseStore (initDef e o) = UseStore o ∧ StoreEngine (initDef e o) = StoreEngine o ∧
  IDOnly (initDef e o) = IDOnly o ∧
  StoreFolder (initDef e o) = (if UseStore o then folderOf o else StoreFolder o) ∧
  GseDict (initDef e o) = (if decide (GseDict o = "" ∧ NotUseGse o = false ∧ loaded e = false) then "zh" else GseDict o).
Proof.
  unfold initDef, folderOf.
  destruct o as [ng us gd py up sf gm hm md n1 n2 n3 n4 n5 n6 p1 p2 so ust fo n7 se io].
  cbn [GseDict NotUseGse UseStore StoreFolder].
  destruct (seqb gd "") eqn:E1; [apply seqb_true in E1|apply seqb_false in E1];
  destruct ng, (loaded e), ust; cbn [negb andb UseStore StoreFolder];
  try (destruct (seqb fo "") eqn:E2; [apply seqb_true in E2|apply seqb_false in E2]);
  cbn; repeat split; repeat case_decide; try done; naive_solver.
Qed.

Record resolved (env : Env) (e : Eng) (opts : EngineOpts) (h : Heap) (ix : IxObj) (o : EngineOpts) (h' : Heap) : Prop := {
  rs_numbers : numbersOf o = zip_with given (numbersOf opts) (defaultNumbers (cpus env));
  rs_gse : NotUseGse o = NotUseGse opts;
  rs_stop : StopTokenFile o = StopTokenFile opts;
  rs_use : UseStore o = UseStore opts;
  rs_engine : StoreEngine o = StoreEngine opts;
  rs_id : IDOnly o = IDOnly opts;
  rs_folder : StoreFolder o = if UseStore opts then folderOf opts else StoreFolder opts;
  rs_dict : GseDict o = if decide (GseDict opts = "" ∧ NotUseGse opts = false ∧ loaded e = false) then "zh" else GseDict opts;
  rs_ix : ∃ ix', (IndexerOptsP o ≫= λ a, hIx h' !! a) = Some ix' ∧ oType ix' = oType ix ∧ oCache ix' = oCache ix }.

Lemma resolve_lem env e opts h ix :
  validPtrs opts h → ixOf opts h = Some ix →
  ∃ o h', OptsInit (cpus env) (initDef e opts) h = Some (o, h') ∧ resolved env e opts h ix o h'.
Proof.
  intros Hv Hix. destruct (initDef_lem e opts) as (D1 & D2 & D3 & D4 & D5 & D6 & D7 & D8 & D9 & D10).
  destruct (optsInit_total (cpus env) (initDef e opts) h) as [[o h'] E].
  { unfold validPtrs in *. by rewrite D2, D3. }
  exists o, h'. split; [done|].
  destruct (fields_lem _ _ _ _ _ E) as (F1 & F2 & F3 & F4).
  destruct (objects_lem _ _ _ _ _ E) as (_ & O1 & _).
  unfold otherFields in F1. injection F1 as G1 G2 G3 G4 G5 G6 G7 G8 G9 G10 G11 G12 G13 G14.
  constructor; try congruence.
  unfold ixOf in Hix. destruct (O1 _ _ Hix) as (v' & Ev & Et & Ec & _). exists v'.
  rewrite F3, D2. done.
Qed.

Lemma CheckMem_lem env o :
  CheckMem env o =
    if decide (UseStore o = false ∧ memUsed env = None) then Panic
    else if decide (UseStore o = false ∧ memUsed env = Some "99.99")
      then Ok (mkEO (NotUseGse o) (Using o) (GseDict o) (PinYin o) (UsePhrase o) (StopTokenFile o)
        (GseMode o) (Hmm o) (Model o) (NumGseThreads o) (NumShards o) (IndexerBufLen o)
        (NumIndexerThreads o) (RankerBufLen o) (NumRankerThreads o) (IndexerOptsP o)
        (DefRankOptsP o) (StoreOnly o) true "./riot-index" (StoreShards o)
        (StoreEngine o) (IDOnly o))
      else Ok o.
Proof.
  unfold CheckMem. destruct (UseStore o).
  { repeat (case_decide; [naive_solver|]). done. }
  destruct (memUsed env) as [u|].
  - destruct (decide (false = false ∧ Some u = None)); [naive_solver|].
    destruct (seqb u "99.99") eqn:E; [apply seqb_true in E|apply seqb_false in E];
    case_decide; try done; naive_solver.
  - by case_decide; [|naive_solver].
Qed.

Lemma path_lem o folder : StoreFolder o = folder → ∀ s, dbPath (StoreFolder o) s = (folder +:+ "/riot." +:+ pretty s)%string.
Proof. intros -> s. unfold dbPath. done. Qed.

(** the options after CheckMem *)
Record final (env : Env) (opts o : EngineOpts) : Prop := {
  fn_numbers : numbersOf o = zip_with given (numbersOf opts) (defaultNumbers (cpus env));
  fn_use : UseStore o = true ↔ usesStore env opts;
  fn_folder : UseStore o = true → StoreFolder o = folderOf opts;
  fn_engine : StoreEngine o = StoreEngine opts }.

Lemma final_lem env e opts h ix o h' o' :
  resolved env e opts h ix o h' → CheckMem env o = Ok o' → final env opts o'.
Proof.
  intros R H. rewrite CheckMem_lem in H. rewrite (rs_use _ _ _ _ _ _ _ R) in H.
  case_decide as C1; [done|]. case_decide as C2.
  - injection H as <-. constructor; cbn.
    + apply (rs_numbers _ _ _ _ _ _ _ R).
    + split; [|done]. intros _. right. tauto.
    + intros _. unfold folderOf. destruct C2 as [-> _]. done.
    + apply (rs_engine _ _ _ _ _ _ _ R).
  - injection H as <-. constructor.
    + apply (rs_numbers _ _ _ _ _ _ _ R).
    + rewrite (rs_use _ _ _ _ _ _ _ R). unfold usesStore. split; [tauto|].
      intros [?|?]; [done|]. destruct (UseStore opts) eqn:E; [done|]. exfalso. by apply C2.
    + rewrite (rs_use _ _ _ _ _ _ _ R), (rs_folder _ _ _ _ _ _ _ R). by intros ->.
    + apply (rs_engine _ _ _ _ _ _ _ R).
Qed.

Lemma final_storeOf env opts o : final env opts o → storeOf env o = storeOf env opts.
Proof. intros F. unfold storeOf. by rewrite (fn_engine _ _ _ F). Qed.

Lemma final_store env opts o l :
  final env opts o → UseStore o = true →
  Store env o = Ok l ↔
  (l = (λ s, (storeOf env opts, pathOf opts s)) <$> seq 0 (Z.to_nat (given (StoreShards opts) 8)) ∧
   0 <= given (StoreShards opts) 8 ∧ mkdirOk env (folderOf opts) = true ∧
   ∀ s, (s < Z.to_nat (given (StoreShards opts) 8))%nat →
       ∃ opens, stores env (storeOf env opts) = Some opens ∧
         opens 0%nat (pathOf opts s) = true ∧ opens 1%nat (pathOf opts s) = true).
Proof.
  intros F U. rewrite Store_lem. rewrite (final_storeOf _ _ _ F), (fn_folder _ _ _ F U).
  pose proof (fn_numbers _ _ _ F) as N. unfold numbersOf, defaultNumbers in N. cbn in N.
  injection N as _ _ _ _ _ _ ->. done.
Qed.

(** The number of goroutines of each kind that Init starts *)
Definition expectGoro (o : EngineOpts) (g : goro) : nat :=
  match g with
  | GSegment => Z.to_nat (NumGseThreads o)
  | GAddDoc s | GRemoveDoc s | GRankAdd s | GRankRemove s => if (s <? Z.to_nat (NumShards o))%nat then 1 else 0
  | GLookup s => if (s <? Z.to_nat (NumShards o))%nat then Z.to_nat (NumIndexerThreads o) else 0
  | GRank s => if (s <? Z.to_nat (NumShards o))%nat then Z.to_nat (NumRankerThreads o) else 0
  | GStoreInit s | GStoreIndex s => 0
  end.

Definition cnt (g : goro) (l : list goro) : nat := length (filter (λ x, x = g) l).
Lemma cnt_app g a b : cnt g (a ++ b) = (cnt g a + cnt g b)%nat.
Proof. unfold cnt. by rewrite filter_app, app_length. Qed.
Lemma cnt_cons g x a : cnt g (x :: a) = ((if decide (x = g) then 1 else 0) + cnt g a)%nat.
Proof. unfold cnt. rewrite filter_cons. by case_decide. Qed.
Lemma cnt_replicate g n x : cnt g (replicate n x) = if decide (x = g) then n else 0%nat.
Proof.
  induction n as [|n IH]; cbn [replicate]; [by case_decide|]. rewrite cnt_cons, IH. by case_decide.
Qed.

Lemma workers_lem o g : cnt g (startWorkers o) = expectGoro o g.
Proof.
  unfold startWorkers. rewrite cnt_app, cnt_replicate. unfold shardsOf.
  set (body := λ s, [GAddDoc s; GRemoveDoc s; GRankAdd s; GRankRemove s] ++
               replicate (Z.to_nat (NumIndexerThreads o)) (GLookup s) ++
               replicate (Z.to_nat (NumRankerThreads o)) (GRank s)).
  assert (∀ n k, cnt g (mjoin (body <$> seq k n)) =
    match g with
    | GSegment | GStoreInit _ | GStoreIndex _ => 0
    | GAddDoc s | GRemoveDoc s | GRankAdd s | GRankRemove s => if (k <=? s)%nat && (s <? k + n)%nat then 1 else 0
    | GLookup s => if (k <=? s)%nat && (s <? k + n)%nat then Z.to_nat (NumIndexerThreads o) else 0
    | GRank s => if (k <=? s)%nat && (s <? k + n)%nat then Z.to_nat (NumRankerThreads o) else 0
    end%nat) as H.
  { induction n as [|n IH]; intros k.
    - destruct g; try done;
      (destruct (Nat.leb_spec k s), (Nat.ltb_spec s (k + 0)); try lia; done).
    - cbn [seq fmap list_fmap mjoin list_join]. rewrite cnt_app. change (list_fmap _ _ body (seq (S k) n)) with (body <$> seq (S k) n).
      change (mjoin (body <$> seq (S k) n)) with (mjoin (body <$> seq (S k) n)) in *. rewrite IH.
      unfold body at 1. rewrite !cnt_app, !cnt_replicate, !cnt_cons.
      replace (S k + n)%nat with (k + S n)%nat by lia. change (cnt g []) with 0%nat.
      destruct g; repeat (case_decide; simplify_eq); try done;
      repeat match goal with |- context [(?a <=? ?b)%nat] => destruct (Nat.leb_spec a b) 
                           | |- context [(?a <? ?b)%nat] => destruct (Nat.ltb_spec a b) end; cbn; try lia;
      exfalso; assert (s ≠ k) by congruence; lia. }
  rewrite H. destruct g; cbn [expectGoro Nat.leb andb Nat.add]; case_decide; try done; lia.
Qed.

Lemma cnt_fmap_stores n : ∀ g k,
  cnt g ((GStoreInit <$> seq k n) ++ (GStoreIndex <$> seq k n)) =
  match g with GStoreInit s | GStoreIndex s => if (k <=? s)%nat && (s <? k + n)%nat then 1 else 0 | _ => 0 end%nat.
Proof.
  intros g k. rewrite cnt_app. revert k. induction n as [|n IH]; intros k.
  - destruct g; try done; (destruct (Nat.leb_spec k s), (Nat.ltb_spec s (k + 0)); try lia; done).
  - cbn [seq fmap list_fmap]. rewrite !cnt_cons.
    change (list_fmap nat goro GStoreInit (seq (S k) n)) with (GStoreInit <$> seq (S k) n).
    change (list_fmap nat goro GStoreIndex (seq (S k) n)) with (GStoreIndex <$> seq (S k) n).
    specialize (IH (S k)). replace (S k + n)%nat with (k + S n)%nat in IH by lia.
    destruct g; repeat (case_decide; simplify_eq); try lia;
    revert IH;
    repeat match goal with |- context [(?a <=? ?b)%nat] => destruct (Nat.leb_spec a b) 
                         | |- context [(?a <? ?b)%nat] => destruct (Nat.ltb_spec a b) end; cbn; try lia;
    try (exfalso; assert (s ≠ k) by congruence; lia).
Qed.

Lemma goros_lem env opts o gs g :
  numbersOf o = zip_with given (numbersOf opts) (defaultNumbers (cpus env)) →
  gs = (if decide (usesStore env opts)
          then (GStoreInit <$> seq 0 (Z.to_nat (given (StoreShards opts) 8))) ++
               (GStoreIndex <$> seq 0 (Z.to_nat (given (StoreShards opts) 8)))
          else []) →
  (cnt g (startWorkers o) + cnt g gs)%nat = expected env opts g.
Proof.
  intros N ->. unfold numbersOf, defaultNumbers in N. cbn in N. injection N as N1 N2 N3 N4 N5 N6 N7.
  rewrite workers_lem. unfold expected.
  assert (C : ∀ s m, (s <? Z.to_nat m)%nat = bool_decide (Z.of_nat s < m)).
  { intros s m. case_bool_decide; [apply Nat.ltb_lt|apply Nat.ltb_ge]; lia. }
  destruct (decide (usesStore env opts)) as [U|U].
  - rewrite cnt_fmap_stores. destruct g; cbn [expectGoro Nat.leb andb Nat.add]; rewrite ?N1, ?N2, ?N4, ?N6, ?C;
    repeat case_bool_decide; repeat case_decide; try lia; tauto.
  - change (cnt g []) with 0%nat. destruct g; cbn [expectGoro]; rewrite ?N1, ?N2, ?N4, ?N6, ?C;
    repeat case_bool_decide; repeat case_decide; try lia; tauto.
Qed.

Lemma start_both env e opts h ix :
  validPtrs opts h → ixOf opts h = Some ix →
  (canStart env e opts ix → ∃ e' h', EngInit env e opts h = Ok (e', h')) ∧
  (∀ e' h', EngInit env e opts h = Ok (e', h') → canStart env e opts ix ∧ setup env e opts ix e').
Proof.
  intros Hv Hix. destruct (resolve_lem env e opts h ix Hv Hix) as (o & h1 & E & R).
  unfold EngInit. rewrite E. clear E.
  destruct R as [RN RG RS RU RE RI RF RD (ix' & Ei & Et & Ec)].
  assert (R : resolved env e opts h ix o h1) by (constructor; eauto).
  rewrite Ei. pose proof RN as N. unfold numbersOf, defaultNumbers in N. cbn in N.
  injection N as N1 N2 N3 N4 N5 N6 N7. rewrite RG, RS.
  destruct (initialized e) eqn:Einit.
  { split; [intros (C & _); congruence|done]. }
  assert (Hns : given (NumShards opts) 8 ≠ 0) by (apply given_nz; lia).
  set (fatal := negb (NotUseGse opts) && negb (seqb (StopTokenFile opts) "") && negb (stopOpens env (StopTokenFile opts))).
  assert (Hfatal : fatal = false ↔ (NotUseGse opts = false → StopTokenFile opts ≠ "" → stopOpens env (StopTokenFile opts) = true)).
  { subst fatal. destruct (NotUseGse opts); cbn; [done|].
    destruct (seqb (StopTokenFile opts) "") eqn:E1; [apply seqb_true in E1|apply seqb_false in E1]; cbn; [done|].
    destruct (stopOpens env (StopTokenFile opts)); cbn; [done|].
    split; [done|]. intros H. symmetry. by apply H. }
  clearbody fatal. rewrite N1, N2, N3, N5, RI.
  destruct fatal.
  { split; [|done]. intros (_ & C2 & _). apply Hfatal in C2. done. }
  destruct Hfatal as [Hf _]. specialize (Hf eq_refl).
  (* sizes *)
  destruct (Z.leb_spec 0 (given (NumShards opts) 8)) as [Hpos|Hneg].
  2:{ replace (Z.to_nat (given (NumShards opts) 8)) with 0%nat by lia. cbn [newIndexers rbind].
      rewrite makeLen_lem. split; [intros (_ & _ & ? & _); lia|].
      intros e' h'. destruct (0 <=? given (NumGseThreads opts) (cpus env)); cbn [rbind]; [|done].
      rewrite makeChans_lem by done. destruct (Z.leb_spec 0 (given (NumShards opts) 8)); [lia|]. done. }
  destruct (Z.to_nat (given (NumShards opts) 8)) as [|n] eqn:En; [lia|].
  rewrite newIndexers_lem, Ec. rewrite makeLen_lem, !makeChans_lem by done. rewrite En.
  destruct (Z.leb_spec 0 (given (NumShards opts) 8)); [|lia]. cbn [andb].
  destruct (Z.leb_spec 0 (given (oCache ix) 300000)) as [Hca|]; cbn [rbind].
  2:{ split; [intros (_ & _ & _ & _ & ? & _); lia|done]. }
  destruct (Z.leb_spec 0 (given (NumGseThreads opts) (cpus env))) as [Hgt|]; cbn [rbind].
  2:{ split; [intros (_ & _ & _ & ? & _); lia|done]. }
  destruct (Z.leb_spec 0 (given (IndexerBufLen opts) (cpus env))) as [Hib|]; cbn [rbind].
  2:{ split; [intros (_ & _ & _ & _ & _ & ? & _); lia|done]. }
  destruct (Z.leb_spec 0 (given (RankerBufLen opts) (cpus env))) as [Hrb|]; cbn [rbind].
  2:{ split; [intros (_ & _ & _ & _ & _ & _ & ? & _); lia|done]. }
  destruct (CheckMem env o) as [o'| |] eqn:Em; cbn [rbind].
  2:{ rewrite CheckMem_lem in Em. repeat (case_decide; try done). }
  2:{ rewrite CheckMem_lem in Em. case_decide as C; [|by case_decide].
      rewrite RU in C. split; [|done]. intros (_ & _ & _ & _ & _ & _ & _ & Hm & _). exfalso.
      destruct C as [C1 C2]. by apply (Hm C1). }
  pose proof (final_lem _ _ _ _ _ _ _ _ R Em) as F.
  assert (Hmem : UseStore opts = false → memUsed env ≠ None).
  { intros U M. rewrite CheckMem_lem in Em. case_decide as C; [done|]. apply C. by rewrite RU. }
  pose proof (fn_numbers _ _ _ F) as N'. unfold numbersOf, defaultNumbers in N'. cbn in N'.
  injection N' as M1 M2 M3 M4 M5 M6 M7. rewrite M7.
  assert (Eix : ∃ bm, IxInit ix' = mkIx (oType ix) (given (oCache ix) 300000) bm).
  { exists (oBM ix'). unfold IxInit. by rewrite Et, Ec, orDef_given. }
  destruct Eix as [bm Eix].
  assert (Edict : (if negb (NotUseGse opts) && negb (loaded e) then Some (GseDict o) else dict e) =
     if decide (NotUseGse opts = false ∧ loaded e = false)
     then Some (if decide (GseDict opts = "") then "zh" else GseDict opts) else dict e).
  { rewrite RD. destruct (NotUseGse opts), (loaded e); cbn; repeat case_decide; naive_solver. }
  destruct (UseStore o') eqn:EU.
  - assert (HU : usesStore env opts) by (by apply (fn_use _ _ _ F)).
    rewrite makeLen_lem.
    destruct (Z.leb_spec 0 (given (StoreShards opts) 8)) as [Hss|]; cbn [rbind].
    2:{ split; [|done]. intros (_ & _ & _ & _ & _ & _ & _ & _ & Hst). destruct (Hst HU). lia. }
    split.
    + intros (_ & _ & _ & _ & _ & _ & _ & _ & Hst). specialize (Hst HU).
      assert (∃ l, Store env o' = Ok l) as [l ->].
      { eexists. apply (final_store env opts o'); [done|done|]. split; [done|]. exact Hst. }
      cbn [rbind]. by eexists _, _.
    + intros e' h'. destruct (Store env o') as [l| |] eqn:ES; cbn [rbind]; [|done|done].
      injection 1 as <- <-. apply final_store with (opts := opts) in ES; [|done|done]. destruct ES as (El & Hst).
      split; [exact (conj Einit (conj Hf (conj Hpos (conj Hgt (conj Hca (conj Hib (conj Hrb (conj Hmem (λ _, Hst)))))))))|].
      constructor; cbn; rewrite ?En; try done.
      * apply (fn_numbers _ _ _ F).
      * by destruct (NotUseGse opts).
      * exists bm. by rewrite Eix.
      * intros g. unfold running. cbn [goros].
        change (cnt g (goros e ++ startWorkers o ++ (GStoreInit <$> shardsOf (given (StoreShards opts) 8)) ++
          (GStoreIndex <$> shardsOf (given (StoreShards opts) 8))) = (cnt g (goros e) + expected env opts g)%nat).
        rewrite (cnt_app g (goros e)), (cnt_app g (startWorkers o)). f_equal.
        apply goros_lem; [done|]. by destruct (decide (usesStore env opts)).
  - assert (HU : ¬ usesStore env opts).
    { intros HU. apply (fn_use _ _ _ F) in HU. congruence. }
    split.
    + intros _. by eexists _, _.
    + intros e' h'. injection 1 as <- <-.
      split; [exact (conj Einit (conj Hf (conj Hpos (conj Hgt (conj Hca (conj Hib (conj Hrb (conj Hmem (λ H, False_ind _ (HU H))))))))))|].
      constructor; cbn; rewrite ?En; try done.
      * apply (fn_numbers _ _ _ F).
      * rewrite EU. split; [done|tauto].
      * by destruct (NotUseGse opts).
      * exists bm. by rewrite Eix.
      * intros g. unfold running. cbn [goros].
        change (cnt g (goros e ++ startWorkers o ++ []) = (cnt g (goros e) + expected env opts g)%nat).
        rewrite (cnt_app g (goros e)), (cnt_app g (startWorkers o)). f_equal.
        apply goros_lem; [done|]. by destruct (decide (usesStore env opts)).
Qed.

(** * Life cycle *)
Lemma second_lem env e opts h e' h' :
  EngInit env e opts h = Ok (e', h') →
  (∀ env2 opts2 h2, EngInit env2 e' opts2 h2 = Fatal) ∧ WithGse e' = Fatal.
Proof.
  intros H. assert (initialized e' = true) as E.
  { unfold EngInit in H. destruct (initialized e); [done|]. destruct (OptsInit _ _ _) as [[o h1]|]; [|done].
    destruct (IndexerOptsP o ≫= _) as [ix|]; [|done]. destruct (_ && _ && _); [done|].
    destruct (newIndexers _ _); cbn [rbind] in H; [|done|done].
    destruct (makeLen _); cbn [rbind] in H; [|done|done].
    destruct (makeChans _ _); cbn [rbind] in H; [|done|done].
    destruct (makeChans (NumShards o) (RankerBufLen o)); cbn [rbind] in H; [|done|done].
    destruct (CheckMem _ _) as [o'| |]; cbn [rbind] in H; [|done|done].
    destruct (UseStore o').
    - destruct (makeLen _); cbn [rbind] in H; [|done|done]. destruct (Store _ _); cbn [rbind] in H; [|done|done].
      by injection H as <- _.
    - by injection H as <- _. }
  split; [intros; unfold EngInit|unfold WithGse]; by rewrite E.
Qed.

Lemma withGse_lem env opts h ix e1 e' h' :
  WithGse zeroEng = Ok e1 → validPtrs opts h → ixOf opts h = Some ix →
  EngInit env e1 opts h = Ok (e', h') → dict e' = None ∧ loaded e' = true.
Proof.
  intros E1 Hv Hix H. destruct (start_both env e1 opts h ix Hv Hix) as [_ S].
  destruct (S _ _ H) as [_ U]. injection E1 as <-. rewrite (su_dict _ _ _ _ _ U), (su_loaded _ _ _ _ _ U). cbn.
  split; [|done]. case_decide as C; [|done]. by destruct C.
Qed.

Lemma hasDocDB_lem env e opts h ix e' h' hash :
  validPtrs opts h → ixOf opts h = Some ix → dbs e = [] →
  EngInit env e opts h = Ok (e', h') →
  given (StoreShards opts) 8 < 2 ^ 32 → 0 <= hash < 2 ^ 32 →
  apiStart e' (AHasDocDB hash) = if decide (usesStore env opts) then Ok tt else Panic.
Proof.
  intros Hv Hix Hd H Hs Hh. destruct (start_both env e opts h ix Hv Hix) as [_ S].
  destruct (S _ _ H) as [(_ & _ & _ & _ & _ & _ & _ & _ & CS) U]. unfold apiStart.
  pose proof (su_numbers _ _ _ _ _ U) as N. unfold numbersOf, defaultNumbers in N. cbn in N.
  injection N as _ _ _ _ _ _ ->.
  pose proof (given_nz (StoreShards opts) 8 ltac:(lia)) as Hnz.
  case_decide as C.
  - destruct (CS C) as [Hp _]. rewrite (proj1 (su_dbs _ _ _ _ _ U C)).
    unfold u32. rewrite Z.mod_small by lia. destruct (Z.eqb_spec (given (StoreShards opts) 8) 0); [done|].
    rewrite list_lookup_fmap, lookup_seq_lt; [done|].
    pose proof (Z.mod_pos_bound hash (given (StoreShards opts) 8)). lia.
  - rewrite (su_nodbs _ _ _ _ _ U C), Hd. by destruct (_ =? 0).
Qed.

Lemma path_inj o s s' : pathOf o s = pathOf o s' → s = s'.
Proof.
  unfold pathOf. intros H. apply (inj (String.append _)) in H. apply (inj (String.append _)) in H.
  by apply (inj pretty) in H.
Qed.

(** * New *)
Lemma arg_str cs i d : (∃ s, arg asStr d cs i = Ok s ∧ strArg cs i d s) ∨
  (arg asStr d cs i = Panic ∧ ∃ c, cs !! i = Some c ∧ ∀ s, c ≠ CStr s).
Proof.
  unfold arg, strArg. destruct (cs !! i) as [c|] eqn:E.
  - destruct c; [left; eauto| |]; right; (split; [done|]); eexists; done.
  - left. exists d. split; [done|]. right. split; [by apply lookup_ge_None|done].
Qed.
Lemma arg_int cs i d : (∃ s, arg asInt d cs i = Ok s ∧ intArg cs i d s) ∨
  (arg asInt d cs i = Panic ∧ ∃ c, cs !! i = Some c ∧ ∀ s, c ≠ CInt s).
Proof.
  unfold arg, intArg. destruct (cs !! i) as [c|] eqn:E.
  - destruct c; [|left; eauto|]; right; (split; [done|]); eexists; done.
  - left. exists d. split; [done|]. right. split; [by apply lookup_ge_None|done].
Qed.

Lemma newOpts_lem cs p :
  newEngineOpts cs p = Panic ↔
    (∃ c, (cs !! 0%nat = Some c ∨ cs !! 1%nat = Some c) ∧ ∀ s, c ≠ CStr s) ∨
    (∃ c, cs !! 2%nat = Some c ∧ ∀ n, c ≠ CInt n).
Proof.
  unfold newEngineOpts.
  assert (S : ∀ i s d, strArg cs i d s → ∀ c, cs !! i = Some c → c = CStr s).
  { intros i s d [E|[L _]] c Hc; [congruence|]. apply lookup_ge_None in L. congruence. }
  destruct (arg_str cs 0 "") as [(d & -> & Hd)|(-> & c & Hc & Hn)]; cbn [rbind].
  2:{ split; [|done]. intros _. left. exists c. auto. }
  destruct (arg_str cs 1 "./riot-index") as [(pa & -> & Hp)|(-> & c & Hc & Hn)]; cbn [rbind].
  2:{ split; [|done]. intros _. left. exists c. auto. }
  destruct (arg_int cs 2 10) as [(n & -> & Hi)|(-> & c & Hc & Hn)]; cbn [rbind].
  2:{ split; [|done]. intros _. right. exists c. auto. }
  split; [done|]. intros [(c & [E|E] & Hn)|(c & E & Hn)].
  - apply (S _ _ _ Hd) in E. naive_solver.
  - apply (S _ _ _ Hp) in E. naive_solver.
  - destruct Hi as [Hi|[L _]]; [|apply lookup_ge_None in L; congruence]. naive_solver.
Qed.

Lemma new_lem env cs h e' h' :
  is_Some (hIx h !! 0%nat) → is_Some (hRk h !! 0%nat) →
  NewEngine env cs h = Ok (e', h') →
  ∃ d path n, strArg cs 0 "" d ∧ strArg cs 1 "./riot-index" path ∧ intArg cs 2 10 n ∧
    0 < given n 8 ∧
    NumShards (initOptions e') = given n 8 ∧ StoreShards (initOptions e') = given n 8 ∧
    UseStore (initOptions e') = true ∧
    dict e' = Some (if decide (d = "") then "zh" else d) ∧ stopFile e' = Some "" ∧
    rankers e' = replicate (Z.to_nat (given n 8)) false ∧
    dbs e' = (λ s, (if decide (getenv env = "") then "ldb" else getenv env,
                    ((if decide (path = "") then "./riot-index" else path) +:+ "/riot." +:+ pretty s)%string))
               <$> seq 0 (Z.to_nat (given n 8)) ∧
    ∃ bm, indexers e' = replicate (Z.to_nat (given n 8)) (mkIx DocIdsIndex 300000 bm, 300000, 600000).
Proof.
  intros H1 H2 H. unfold NewEngine in H. set (p := fresh (dom (hIx h))) in *.
  unfold newEngineOpts in H.
  destruct (arg_str cs 0 "") as [(d & E0 & Hd)|(E0 & _)]; rewrite E0 in H; cbn [rbind] in H; [|done].
  destruct (arg_str cs 1 "./riot-index") as [(pa & E1 & Hp)|(E1 & _)]; rewrite E1 in H; cbn [rbind] in H; [|done].
  destruct (arg_int cs 2 10) as [(n & E2 & Hi)|(E2 & _)]; rewrite E2 in H; cbn [rbind] in H; [|done].
  match type of H with EngInit _ _ ?o ?hh = _ => set (opts := o) in *; set (h0 := hh) in * end.
  assert (Hv : validPtrs opts h0).
  { assert (p ∉ dom (hIx h)) as Hf by apply is_fresh. apply not_elem_of_dom in Hf.
    split; [|split; [|split]]; cbn.
    - intros a [= <-]. rewrite lookup_insert. eauto.
    - done.
    - rewrite lookup_insert_ne; [done|]. intros E. rewrite E in Hf. destruct H1. congruence.
    - done. }
  assert (Hix : ixOf opts h0 = Some (mkIx DocIdsIndex 0 None)).
  { unfold ixOf. cbn. by rewrite lookup_insert. }
  destruct (start_both env zeroEng opts h0 _ Hv Hix) as [_ S]. destruct (S _ _ H) as [C U].
  assert (HU : usesStore env opts) by (by left).
  pose proof (su_numbers _ _ _ _ _ U) as N. unfold numbersOf, defaultNumbers in N. cbn in N.
  injection N as _ N2 _ _ _ _ N7.
  exists d, pa, n. split; [done|]. split; [done|]. split; [done|].
  split. { destruct C as (_ & _ & C & _). cbn in C. pose proof (given_nz n 8 ltac:(lia)). lia. }
  split; [done|]. split; [done|]. split; [by apply (su_use _ _ _ _ _ U)|].
  split. { rewrite (su_dict _ _ _ _ _ U). cbn. by destruct (decide _) as [|[]]. }
  split; [by rewrite (su_stop _ _ _ _ _ U)|].
  split; [by rewrite (su_rk _ _ _ _ _ U)|].
  split; [by rewrite (proj1 (su_dbs _ _ _ _ _ U HU))|].
  destruct (su_ix _ _ _ _ _ U) as [bm ->]. exists bm. done.
Qed.

Lemma toml_lem env toml s cs h :
  hasSuffix s ".toml" = true → New env toml (CStr s :: cs) h = EngInit env zeroEng (toml s) h.
Proof. intros E. cbn. by rewrite E. Qed.


(** * SearchDoc and SearchID *)
Lemma finish_docs sortBy req out num tmo resp :
  finish sortBy req out num tmo = Some resp → (rsDocs resp = None ↔ rqCountOnly req = true).
Proof.
  unfold finish. destruct (rqCountOnly req).
  { by injection 1 as <-. }
  destruct (rqOrderless req).
  { by injection 1 as <-. }
  destruct (maxRankOutput _ _) as [a b]. destruct (zslice _ a b); cbn; [|done]. by injection 1 as <-.
Qed.

Lemma searchDoc_lem log2 sortBy req shards order resp idOnly :
  Search log2 sortBy req shards order = Some resp →
  (is_Some (SearchDoc idOnly resp) ↔ idOnly = false ∧ rqCountOnly req = false) ∧
  (is_Some (SearchID idOnly resp) ↔ idOnly = true ∧ rqCountOnly req = false).
Proof.
  intros H. assert (rsDocs resp = None ↔ rqCountOnly req = true) as E.
  { unfold Search in H. destruct (mapM _ shards); cbn in H; [|done].
    destruct (mapM _ order) as [ev|]; cbn in H; [|done].
    unfold Ranks in H. destruct (_ <=? 0).
    - destruct (NotTimeOut _ _) as [out num]. by eapply finish_docs.
    - destruct (TimeOut _ _) as [[out num] t]. by eapply finish_docs. }
  unfold SearchDoc, SearchID. destruct (rsDocs resp), (rqCountOnly req); try (exfalso; naive_solver);
  destruct idOnly; split; split; intros X; try done; try (by destruct X); by eexists.
Qed.

(** * file names *)
Lemma substring_all s : String.substring 0 (String.length s) s = s.
Proof. induction s as [|c s IH]; [done|]. cbn. by rewrite IH. Qed.
Lemma substring_app p q : String.substring (String.length p) (String.length q) (p +:+ q) = q.
Proof. induction p as [|c p IH]; [apply substring_all|]. exact IH. Qed.
Lemma length_app p q : String.length (p +:+ q) = (String.length p + String.length q)%nat.
Proof. induction p as [|c p IH]; [done|]. cbn [String.length Nat.add]. by rewrite <- IH. Qed.
Lemma substring_split s : ∀ n, (n <= String.length s)%nat →
  (String.substring 0 n s +:+ String.substring n (String.length s - n) s)%string = s.
Proof.
  induction s as [|c s IH]; intros n Hn.
  - destruct n; [done|]. cbn in Hn. lia.
  - destruct n as [|n].
    + change (String.substring 0 0 (String c s)) with EmptyString.
      rewrite Nat.sub_0_r. exact (substring_all (String c s)).
    + cbn [String.length] in *. change (String c (String.substring 0 n s +:+ String.substring n (String.length s - n) s) = String c s).
      rewrite IH; [done|lia].
Qed.
Lemma hasSuffix_lem s suf : hasSuffix s suf = true ↔ ∃ p, s = (p +:+ suf)%string.
Proof.
  unfold hasSuffix. rewrite andb_true_iff, Nat.leb_le, seqb_true. split.
  - intros [Hl E]. exists (String.substring 0 (String.length s - String.length suf) s).
    rewrite <- E at 2. 
    pose proof (substring_split s (String.length s - String.length suf) ltac:(lia)) as P.
    replace (String.length s - (String.length s - String.length suf))%nat with (String.length suf) in P by lia.
    done.
  - intros [p ->]. rewrite length_app. split; [lia|].
    replace (String.length p + String.length suf - String.length suf)%nat with (String.length p) by lia.
    apply substring_app.
Qed.


Lemma new_toml env toml p cs h :
  New env toml (CStr (p +:+ ".toml") :: cs) h = EngInit env zeroEng (toml (p +:+ ".toml")%string) h.
Proof. apply toml_lem. apply hasSuffix_lem. by exists p. Qed.
Lemma new_other env toml s cs h : (∀ p, s ≠ (p +:+ ".toml")%string) →
  New env toml (CStr s :: cs) h = NewEngine env (CStr s :: cs) h.
Proof.
  intros H. cbn [New asStr rbind]. destruct (hasSuffix s ".toml") eqn:E; [|done].
  apply hasSuffix_lem in E as [p E]. by destruct (H p).
Qed.
