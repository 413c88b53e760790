(** Proofs about examples/codelab and examples/pinyin_weibo. *)
From Coq Require Import Floats.SpecFloat.
From Verif Require Import ModelExamples ModelFlight SpecIndexer SpecSearch SpecLogic SpecRank SpecRoute SpecPipe SpecSegment SpecEngine SpecFlight SpecEnd SpecFits SpecBM25 SpecScored
  SpecDuring SpecDeadline SpecWhole SpecExamples
  ProofFloat ProofMag ProofBM25 ProofSortBy ProofEnd ProofFits ProofScored ProofReserved ProofSegEnd ProofWholeThms ProofDuring ProofDeadline ProofNumbers ProofExamples.

(** * The table *)
Lemma codelab_split l w : codelab_line l w → ∃ ts f2 rp f5 f6 f7 f8, Split l "||||" = [cwId w; ts; f2; cwUser w; rp; f5; f6; f7; f8; cwText w].
Proof.
  intros (ts & f2 & rp & f5 & f6 & f7 & f8 & H & _). apply split_lem in H; [|done]. exists ts, f2, rp, f5, f6, f7, f8. done.
Qed.
Definition tableStep (m : gmap string CWeibo) (l : string) : gmap string CWeibo :=
  match Split l "||||" with
  | [id; ts; _; user; reposts; _; _; _; _; text] =>
    <[id := mkCW id (ParseUint (2^64 - 1) ts) user (ParseUint (2^64 - 1) reposts) text]> m
  | _ => m
  end.
Lemma tableStep_cases m l : (tableStep m l = m ∧ ∀ w, ¬ codelab_line l w) ∨ ∃ w, codelab_line l w ∧ tableStep m l = <[cwId w := w]> m.
Proof.
  assert (HF : fields "||||" l (Split l "||||")) by by apply split_lem.
  assert (Hn : ∀ w, codelab_line l w → length (Split l "||||") = 10%nat).
  { intros w (ts & f2 & rp & f5 & f6 & f7 & f8 & ->)%codelab_split. done. }
  unfold tableStep.
  destruct (Split l "||||") as [|id [|ts [|f2 [|us [|rp [|f5 [|f6 [|f7 [|f8 [|text [|]]]]]]]]]]] eqn:E;
    try (left; split; [done|]; intros w Hw; specialize (Hn w Hw); done).
  right. exists (mkCW id (ParseUint (2^64 - 1) ts) us (ParseUint (2^64 - 1) rp) text). split; [|done].
  exists ts, f2, rp, f5, f6, f7, f8. split; [done|]. split; apply ParseUint_num; lia.
Qed.
Lemma readCodelab_lem lines id :
  match readCodelab lines !! id with
  | Some w => cwId w = id ∧ last_line lines w
  | None => ∀ l w, l ∈ lines → codelab_line l w → cwId w ≠ id
  end.
Proof.
  change (readCodelab lines) with (foldl tableStep ∅ lines).
  induction lines as [|l lines IH] using rev_ind; [cbn [foldl]; rewrite lookup_empty; intros l w H; by apply elem_of_nil in H|].
  rewrite foldl_app. cbn [foldl]. set (m := foldl tableStep ∅ lines) in *.
  assert (Hkeep : (∀ w, codelab_line l w → cwId w ≠ id) → match m !! id with
    | Some w => cwId w = id ∧ last_line (lines ++ [l]) w | None => ∀ l' w, l' ∈ lines ++ [l] → codelab_line l' w → cwId w ≠ id end).
  { intros Hl. destruct (m !! id) as [w|].
    - destruct IH as [Hid (b & k & a & -> & Hk & Ha)]. split; [done|]. exists b, k, (a ++ [l]). split; [by rewrite <- app_assoc|]. split; [done|].
      intros l' w' [Hl'|Hl'%elem_of_list_singleton]%elem_of_app Hw'; [by eapply Ha|]. subst l'. rewrite Hid. by apply Hl.
    - intros l' w [Hl'|Hl'%elem_of_list_singleton]%elem_of_app Hw; [by eapply IH|]. subst l'. by apply Hl. }
  destruct (tableStep_cases m l) as [[-> Hl]|(w & Hw & ->)]; [apply Hkeep; intros w Hw; by destruct (Hl w)|].
  destruct (decide (cwId w = id)) as [E|E].
  - subst id. rewrite lookup_insert. split; [done|]. exists lines, l, []. split; [done|]. split; [done|]. intros l' w' H. by apply elem_of_nil in H.
  - rewrite lookup_insert_ne by done. apply Hkeep. intros w' Hw'. destruct (codelab_split _ _ Hw) as (? & ? & ? & ? & ? & ? & ? & E1).
    destruct (codelab_split _ _ Hw') as (? & ? & ? & ? & ? & ? & ? & E2). rewrite E1 in E2. injection E2. congruence.
Qed.

(** * Magnitudes *)
(** A positive number of the magnitude [k] or one more *)
Definition about (k : Z) (x : F) : Prop :=
  match x with
  | S754_finite s m e => s = false ∧ fexp 24 128 (Z.log2 (Zpos m) + 1 + e) = e ∧ k <= Z.log2 (Zpos m) + e <= k + 1
  | _ => False
  end.
Lemma aux_about mx ex lx : 0 < mx → ex <= fexp 24 128 (Z.log2 mx + 1 + ex) → -149 <= Z.log2 mx + ex < 127 →
  about (Z.log2 mx + ex) (binary_round_aux 24 128 false mx ex lx).
Proof.
  intros Hm Hex Hk.
  destruct (aux_parts false mx ex lx ltac:(lia)) as (m1 & e1 & m2 & m3 & e3 & Hm1 & He1 & Hp1 & Hm2 & Hm3 & He3 & Hp3 & ->).
  rewrite Zdigits2_log2 in Hm1, He1 by done.
  set (n1 := Z.max 0 (fexp 24 128 (Z.log2 mx + 1 + ex) - ex)) in *.
  assert (He1f : e1 = fexp 24 128 (Z.log2 mx + 1 + ex)) by (unfold n1 in *; lia).
  pose proof (Z.log2_nonneg mx).
  assert (Hn1 : 0 <= n1 <= Z.log2 mx) by (unfold n1; rewrite fexp_eq; lia).
  assert (0 < m1) by (rewrite Hm1; by apply div_pos_log).
  assert (Hm2p : 0 < m2) by lia.
  rewrite Zdigits2_log2 in Hm3, He3 by done.
  set (n2 := Z.max 0 (fexp 24 128 (Z.log2 m2 + 1 + e1) - e1)) in *.
  assert (Hl1 : Z.log2 m1 = Z.log2 mx - n1) by (rewrite Hm1; apply zlog2_div; lia).
  assert (Z.log2 m1 <= Z.log2 m2) by (apply Z.log2_le_mono; lia).
  assert (Z.log2 m2 <= Z.log2 m1 + 1).
  { transitivity (Z.log2 (Z.succ m1)); [apply Z.log2_le_mono; lia|]. pose proof (Z.log2_succ_le m1). lia. }
  pose proof (Z.log2_nonneg m2).
  assert (Hp : 0 < m3). { rewrite Hm3. apply div_pos_log; [|lia]. unfold n2. rewrite fexp_eq. lia. }
  assert (Hl3 : Z.log2 m3 = Z.log2 m2 - n2) by (rewrite Hm3; apply zlog2_div; lia).
  assert (He3f : e3 = fexp 24 128 (Z.log2 m2 + 1 + e1)).
  { assert (e1 <= fexp 24 128 (Z.log2 m2 + 1 + e1)); [|unfold n2 in *; lia]. rewrite He1f at 1. rewrite !fexp_eq. lia. }
  assert (e3 <= 104) by (rewrite He3f, fexp_eq; lia).
  destruct (Z.eqb_spec m3 0); [lia|]. destruct (Z.leb_spec e3 104); [|lia]. cbn [about]. rewrite Z2Pos.id by lia. split; [done|].
  rewrite Hl3. split; [|lia]. rewrite He3f at 2. f_equal. lia.
Qed.
Lemma of_Z_about p : 0 < p < 2 ^ 127 → about (Z.log2 p) (f32_of_Z p).
Proof.
  intros Hp. unfold f32_of_Z, binary_normalize. destruct p as [|p|p]; [lia| |lia].
  destruct (round_eq false p 0) as (m' & e' & -> & L & C). rewrite Z.add_0_r in L. rewrite <- L. apply aux_about; [lia|done|].
  rewrite L. pose proof (Z.log2_nonneg (Zpos p)). assert (Z.log2 (Zpos p) < 127) by (apply Z.log2_lt_pow2; lia). lia.
Qed.
Lemma div_about m1 e1 m2 e2 : Z.log2 (Zpos m1) = 23 → Z.log2 (Zpos m2) = 23 → -100 <= e1 - e2 <= 100 →
  ∃ k, k <= e1 - e2 ∧ about k (f32_div (S754_finite false m1 e1) (S754_finite false m2 e2)).
Proof.
  intros L1 L2 He. unfold f32_div, SFdiv, SFdiv_core_binary. rewrite !Zdigits2_log2 by lia. rewrite L1, L2, fexp_eq.
  set (e' := Z.min _ _). assert (Ee : e' = e1 - e2 - 24) by (unfold e'; lia).
  set (s := e1 - e2 - e'). assert (Es : s = 24) by (unfold s; lia). rewrite Es.
  set (m' := Z.shiftl _ _). assert (Em : m' = Zpos m1 * 16777216) by (unfold m'; by rewrite Z.shiftl_mul_pow2).
  pose proof (Z_div_mod m' (Zpos m2) ltac:(lia)) as D. destruct (Z.div_eucl m' (Zpos m2)) as [q r]. destruct D as [D1 D2].
  pose proof (Z.log2_spec (Zpos m1) ltac:(lia)) as [S1 S2]. rewrite L1 in S1, S2. change (2 ^ Z.succ 23) with 16777216 in S2. change (2 ^ 23) with 8388608 in S1.
  pose proof (Z.log2_spec (Zpos m2) ltac:(lia)) as [S3 S4]. rewrite L2 in S3, S4. change (2 ^ Z.succ 23) with 16777216 in S4. change (2 ^ 23) with 8388608 in S3.
  rewrite Em in D1. clear Em m'. assert (Hq : 8388608 <= q < 33554432) by nia.
  assert (Hlq : 23 <= Z.log2 q <= 24).
  { split; [apply (Z.log2_le_mono 8388608); lia|]. assert (Z.log2 q < 25); [|lia]. apply Z.log2_lt_pow2; lia. }
  cbn [xorb]. exists (Z.log2 q + e'). split; [lia|]. apply aux_about; [lia| |lia]. rewrite fexp_eq. lia.
Qed.
(** 1 / p for a great p *)
Lemma inv_about p : 4 <= p < 2 ^ 63 → ∃ k, k <= -2 ∧ about k (f32_div (f32_of_Z 1) (f32_of_Z p)).
Proof.
  intros Hp. pose proof (of_Z_about p ltac:(lia)) as H. assert (Hl : 2 <= Z.log2 p < 63).
  { split; [apply (Z.log2_le_mono 4); lia|apply Z.log2_lt_pow2; lia]. }
  destruct (f32_of_Z p) as [| | |s m e]; [done|done|done|]. destruct H as (-> & C & L).
  change (f32_of_Z 1) with (S754_finite false 8388608 (-23)). rewrite fexp_eq in C. assert (Lm : Z.log2 (Zpos m) = 23) by lia.
  destruct (div_about 8388608 (-23) m e) as (k & Hk & H); [done|done|lia|]. exists k. split; [lia|done].
Qed.
(** r / 10000 *)
Lemma reposts_below r : 0 <= r < 2 ^ 64 → below 80 (f32_div (f32_of_Z r) (f32_of_Z 10000)).
Proof.
  intros Hr. destruct (Z.eq_dec r 0) as [->|]; [by vm_compute|]. pose proof (of_Z_about r ltac:(lia)) as H.
  assert (Hl : 0 <= Z.log2 r < 64). { split; [apply Z.log2_nonneg|apply Z.log2_lt_pow2; lia]. }
  destruct (f32_of_Z r) as [| | |s m e]; [done|done|done|]. destruct H as (-> & C & L).
  change (f32_of_Z 10000) with (S754_finite false 10240000 (-10)). rewrite fexp_eq in C. assert (Lm : Z.log2 (Zpos m) = 23) by lia.
  destruct (div_about m e 10240000 (-10)) as (k & Hk & H); [done|done|lia|].
  destruct (f32_div _ _); try done. destruct H as (-> & C' & L'). split; [done|]. split; [done|]. lia.
Qed.
Lemma about_small k x : k <= -2 → about k x → f_gtb (f32_of_Z 1) x = true.
Proof.
  intros Hk. destruct x as [| | |s m e]; [done|done|done|]. intros (-> & C & L). rewrite fexp_eq in C.
  change (f32_of_Z 1) with (S754_finite false 8388608 (-23)). unfold f_gtb, SFltb. cbn [SFcompare].
  destruct (Z.compare_spec e (-23)) as [E|E|E]; [|done|]; exfalso; [|lia].
  pose proof (Z.log2_nonneg (Zpos m)). lia.
Qed.
Lemma near_above p : 2 < p < 2 ^ 63 → f_gtb (f32_of_Z 1) (f32_div (f32_of_Z 1) (f32_of_Z p)) = true.
Proof.
  intros Hp. destruct (Z.eq_dec p 3) as [->|]; [by vm_compute|]. destruct (inv_about p) as (k & Hk & H); [lia|]. by eapply about_small.
Qed.
Lemma about_nn k x : about k x → nn x ∧ fin x ∧ nz x.
Proof. destruct x; [done|done|done|]. by intros (-> & _). Qed.
Lemma mul_nn_r x y : nn x → nn y → fin y → nz y → nn (f32_mul x y).
Proof.
  destruct x as [sx|sx| |sx mx ex], y as [sy|sy| |sy my ey]; cbn; try done.
  - by intros -> ->.
  - intros -> ->. intros _ _. by apply aux_nn.
Qed.
Lemma of_Z_nn_gen z : 0 <= z < 2 ^ 64 → below 65 (f32_of_Z z).
Proof.
  intros Hz. destruct (Z.eq_dec z 0) as [->|]; [by rewrite f32_of_Z_0|]. pose proof (of_Z_about z ltac:(lia)) as H.
  assert (Z.log2 z < 64) by (apply Z.log2_lt_pow2; lia).
  destruct (f32_of_Z z); try done. destruct H as (-> & C & L). split; [done|]. split; [done|]. lia.
Qed.

(** * The scores of examples/codelab *)
Section Scores.
  Context (asCSF : Iface → option CSF) (Hrange : ∀ f w, asCSF f = Some w → 0 <= csReposts w < 2 ^ 64).
  Lemma nn_number x : nn x → f_eqb x x = true.
  Proof. intros H%score_nn. apply H. Qed.
  Lemma codelab_sane : sane_scoring (codelabScore asCSF).
  Proof.
    intros x f Hx%score_nn. unfold codelabScore. destruct (asCSF f) as [w|] eqn:E; [|constructor]. specialize (Hrange f w E).
    assert (H1 : nn (f32_of_Z 1) ∧ fin (f32_of_Z 1) ∧ nz (f32_of_Z 1)) by (by apply (about_nn 0), (of_Z_about 1)). destruct H1 as (O1 & O2 & O3).
    pose proof (of_Z_nn_gen (csReposts w) Hrange) as HB.
    constructor; [|constructor; [apply of_Z_number|constructor; [|constructor]]]; apply nn_number.
    - destruct (TokenProximity x >? 2) eqn:Ep; [|done]. apply Z.gtb_lt in Ep. apply div_nn; [done| |done|].
      + unfold f32_of_Z, binary_normalize. destruct (TokenProximity x); [done|apply round_nn|lia].
      + unfold f32_of_Z, binary_normalize. destruct (TokenProximity x); [lia|apply round_nz; pose proof (Z.log2_nonneg (Zpos p)); lia|lia].
    - pose proof (reposts_below (csReposts w) Hrange) as HD.
      assert (H1 : below 80 (f32_of_Z 1)) by (apply (below_mono 65); [lia|]; apply of_Z_nn_gen; lia).
      assert (HA : below (80 + 2) (f32_add (f32_of_Z 1) (f32_div (f32_of_Z (csReposts w)) (f32_of_Z 10000)))) by (apply add_below; [done|done|lia]).
      assert (HZ : nz (f32_add (f32_of_Z 1) (f32_div (f32_of_Z (csReposts w)) (f32_of_Z 10000)))).
      { apply add_nz; [done|by eapply below_nn| |done]. by apply (below_mono 80). }
      apply mul_nn_r; [done|by eapply below_nn|by eapply below_fin|done].
  Qed.
  (** Documents whose words are next to each other come first. *)
  Lemma codelab_near x1 f1 w1 x2 f2 w2 : asCSF f1 = Some w1 → asCSF f2 = Some w2 →
    TokenProximity x1 <= 2 → 2 < TokenProximity x2 < 2 ^ 63 → ranks_above (codelabScore asCSF x1 f1) (codelabScore asCSF x2 f2).
  Proof.
    intros E1 E2 H1 H2. unfold codelabScore. rewrite E1, E2. apply above_here.
    destruct (TokenProximity x1 >? 2) eqn:G1; [apply Z.gtb_lt in G1; lia|].
    destruct (TokenProximity x2 >? 2) eqn:G2; [|rewrite Z.gtb_ltb in G2; apply Z.ltb_ge in G2; lia]. by apply near_above.
  Qed.
End Scores.

(** * The calls of examples/codelab *)
Section Calls.
  Context (boxC : CSF → Iface) (X : Ext) (stop : gset string) (so : SegOpts) (HX : valid_range X).
  Notation cdata w := (mkData (cwText w) INil [] [] (boxC (mkCSF (cwTime w) (cwReposts w)))).
  Notation ccall w doc := (EIndex doc (boxC (mkCSF (cwTime w) (cwReposts w))) (cwText w) INil false).
  Lemma ccalls_elem kvs : ∀ cs, mapM (codelabCall boxC X stop so) kvs = Some cs →
    omap call_id (pipeCall <$> cs) = kvs.*1 ∧
    ∀ c, c ∈ pipeCall <$> cs ↔ ∃ id w doc, (id, w) ∈ kvs ∧ segDoc X stop so id (cdata w) = Some doc ∧ c = ccall w doc.
  Proof.
    induction kvs as [|[id w] kvs IH]; intros cs.
    { intros [= <-]. split; [done|]. intros c. split; [intros H; by apply elem_of_nil in H|]. intros (id & w & doc & H & _). by apply elem_of_nil in H. }
    change (mapM (codelabCall boxC X stop so) ((id, w) :: kvs)) with
      (c ← codelabCall boxC X stop so (id, w); cs ← mapM (codelabCall boxC X stop so) kvs; Some (c :: cs)).
    change (codelabCall boxC X stop so (id, w)) with (doc ← segDoc X stop so id (cdata w); Some (WIndex doc (cdata w) false)).
    destruct (segDoc X stop so id (cdata w)) as [doc|] eqn:E; [|done]. cbn [mbind option_bind].
    destruct (mapM (codelabCall boxC X stop so) kvs) as [cs'|] eqn:E'; [|done]. cbn [mbind option_bind]. intros [= <-].
    destruct (IH cs' eq_refl) as [H1 H2]. destruct (segDoc_good _ _ _ _ _ _ HX E) as [_ Hid].
    rewrite fmap_cons. cbn [pipeCall omap list_omap call_id]. rewrite Hid, H1. split; [done|]. intros c. rewrite elem_of_cons, H2. split.
    - intros [->|(i & w' & doc' & A & B & C)]; [exists id, w, doc; split; [left|done]|exists i, w', doc'; split; [by right|done]].
    - intros (i & w' & doc' & [A|A]%elem_of_cons & B & C); [|right; by exists i, w', doc']. left. injection A as -> ->. rewrite E in B. by injection B as ->.
  Qed.
  Context (m : gmap string CWeibo) (kvs : list (string * CWeibo)) (Hkvs : kvs ≡ₚ map_to_list m).
  Context (prog : list wcall) (Hp : codelabProg boxC X stop so kvs = Some prog).
  Lemma kvs_elem id w : (id, w) ∈ kvs ↔ m !! id = Some w.
  Proof. rewrite Hkvs. apply elem_of_map_to_list. Qed.
  Lemma cprog_parts : ∃ cs, pipeProg prog = (pipeCall <$> cs) ++ [EFlush] ∧ omap call_id (pipeCall <$> cs) = kvs.*1 ∧
    ∀ c, c ∈ pipeCall <$> cs ↔ ∃ id w doc, codelab_doc boxC X stop so m id w doc ∧ c = ccall w doc.
  Proof.
    unfold codelabProg in Hp. destruct (mapM _ kvs) as [cs|] eqn:E; [|done]. cbn in Hp. injection Hp as <-. exists cs.
    unfold pipeProg. rewrite fmap_app. split; [done|]. destruct (ccalls_elem kvs cs E) as [H1 H2]. split; [done|].
    intros c. rewrite H2. unfold codelab_doc. setoid_rewrite kvs_elem. naive_solver.
  Qed.
  Lemma kvs_NoDup : NoDup (kvs.*1).
  Proof. rewrite Hkvs. apply NoDup_fst_map_to_list. Qed.
  Lemma cprog_elem c : c ∈ pipeProg prog ↔ c = EFlush ∨ ∃ id w doc, codelab_doc boxC X stop so m id w doc ∧ c = ccall w doc ∧ good_doc doc ∧ DocId doc = id.
  Proof.
    destruct cprog_parts as (cs & -> & _ & H). rewrite elem_of_app, H, elem_of_list_singleton. split.
    - intros [(id & w & doc & [H1 H2] & ->)| ->]; [|by left]. right. exists id, w, doc. destruct (segDoc_good _ _ _ _ _ _ HX H2). done.
    - intros [->|(id & w & doc & H1 & -> & _)]; [by right|]. left. by exists id, w, doc.
  Qed.
  Lemma cordinary_elem c : c ∈ ordinary (pipeProg prog) ↔ c = EFlush ∨ ∃ id w doc, id ≠ "0" ∧ codelab_doc boxC X stop so m id w doc ∧ c = ccall w doc ∧ good_doc doc ∧ DocId doc = id.
  Proof.
    unfold ordinary. rewrite elem_of_list_filter, cprog_elem. split.
    - intros [Hz [->|(i & w & doc & H1 & -> & H2 & H3)]]; [by left|]. right. exists i, w, doc. cbn in Hz.
      destruct (string_dec (DocId doc) "0") as [|Hne]; [done|]. split; [congruence|done].
    - intros [->|(i & w & doc & H0 & H1 & -> & H2 & H3)]; [split; [done|by left]|]. split; [|right; by exists i, w, doc].
      cbn. subst i. by destruct (string_dec (DocId doc) "0").
  Qed.
  Lemma cprog_ids : NoDup (omap call_id (pipeProg prog)).
  Proof. destruct cprog_parts as (cs & -> & Hi & _). rewrite omap_app, Hi. cbn. rewrite app_nil_r. apply kvs_NoDup. Qed.
  Lemma cprog_once : once_each (ordinary (pipeProg prog)) ∧ Forall good_call (pipeProg prog) ∧
    ∃ ph, pipeProg prog = program [ph] ∧ good_phase (ordinary ph).
  Proof.
    split; [|split].
    - split.
      + apply Forall_forall. intros c [->|(i & w & doc & H0 & _ & -> & H2 & H3)]%cordinary_elem; [done|]. split; [done|]. cbn. congruence.
      + eapply sublist_NoDup; [|apply omap_ordinary]. apply cprog_ids.
    - apply Forall_forall. intros c [->|(i & w & doc & _ & -> & H2 & _)]%cprog_elem; done.
    - destruct cprog_parts as (cs & E & Hi & Hc). exists (pipeCall <$> cs). split; [by rewrite E; unfold program; cbn; rewrite app_nil_r|]. split.
      + apply Forall_forall. intros c [Hz Hin]%elem_of_list_filter. apply Hc in Hin as (id & w & doc & [H1 H2] & ->).
        destruct (segDoc_good _ _ _ _ _ _ HX H2). split; [done|]. cbn in Hz |- *. by destruct (string_dec (DocId doc) "0").
      + eapply sublist_NoDup; [|apply omap_ordinary]. rewrite Hi. apply kvs_NoDup.
  Qed.
End Calls.

(** * The server of examples/codelab *)
Section Run.
  Context (asCSF : Iface → option CSF) (boxC : CSF → Iface).
  Context (Hrange : ∀ f w, asCSF f = Some w → 0 <= csReposts w < 2 ^ 64).
  Context (X : Ext) (stop : gset string) (so : SegOpts) (HX : valid_range X).
  Context (murmur : string → Z) (n : Z) (reqsFirst : bool) (cap : chan → nat) (Hn : 1 <= n < 2 ^ 32).
  Context (lines : list string) (kvs : list (string * CWeibo)) (Hkvs : kvs ≡ₚ map_to_list (readCodelab lines)).
  Context (prog : list wcall) (Hp : codelabProg boxC X stop so kvs = Some prog).
  Notation m := (readCodelab lines).
  Lemma table_entry id w : m !! id = Some w → cwId w = id ∧ 0 <= cwReposts w < 2 ^ 64.
  Proof.
    intros E. pose proof (readCodelab_lem lines id) as H. rewrite E in H. destruct H as [H (b & l & a & _ & Hl & _)].
    split; [done|]. destruct Hl as (ts & f2 & rp & f5 & f6 & f7 & f8 & _ & _ & [Hr _]). lia.
  Qed.
  Lemma cshow_lem toks late num out : (∀ h, h ∈ out → ∃ w, m !! sdDocId h = Some w ∧ sdContent h = cwText w) →
    ∃ shown, codelabShow m (mkResp toks late num (Some out)) = Some shown ∧ Forall2 (λ h w, m !! sdDocId h = Some w) out shown.
  Proof.
    intros H. eexists. split; [reflexivity|]. rewrite <- (list_fmap_id out) at 1.
    change (map ?f out) with (f <$> out). apply Forall2_fmap. apply Forall_Forall2_diag, Forall_forall. intros h Hh. cbn.
    destruct (H h Hh) as (w & E & Ht). rewrite E. cbn. rewrite Ht. by destruct w.
  Qed.
  Lemma codelab_wanted query doc : wanted (codelabReq asCSF X stop so query) doc ↔ ∀ t, t ∈ Tokens X stop so query [] → t ∈ Text <$> Keywords doc.
  Proof. unfold wanted. cbn [codelabReq rqDocIds rqTokens rqLabels]. rewrite app_nil_r. split; [by intros [_ H]|by split]. Qed.
  Lemma codelab_plain o query : Tokens X stop so query [] ≠ [] → plain_request o (codelabReq asCSF X stop so query).
  Proof. intros Ht. unfold plain_request. cbn [codelabReq rqTokens rqLabels]. rewrite app_nil_r. by repeat split. Qed.

  Theorem codelab_search sortDocs sortBy o s0 nseg s shards log2 query order :
    (∀ c, 0 <= csReposts c < 2 ^ 64 → asCSF (boxC c) = Some c) →
    valid_sort sortDocs → valid_sortBy sortBy → Init o = Some s0 →
    pipe_reach murmur n false reqsFirst cap nseg [pipeProg prog] s → quiescent s →
    engine_shards sortDocs s0 false n s shards → usual_log2 log2 → usual_calls o murmur n (ordinary (pipeProg prog)) →
    Tokens X stop so query [] ≠ [] → all_arrive (length shards) order →
    ∃ full out shown resp, Search log2 sortBy (codelabReq asCSF X stop so query) shards order = Some resp ∧
      resp = mkResp (Tokens X stop so query []) false (zlen full) (Some out) ∧
      codelab_answers asCSF boxC X stop so
        (λ text doc x, let i := shard_for murmur n (DocId doc) text in
           describes log2 o (shard_total shards i) (shard_docs murmur n i (ordinary (pipeProg prog))) (Tokens X stop so query []) doc x)
        m (Tokens X stop so query []) full ∧
      Forall2 same_scores out (page 0 100 full) ∧ out ⊆+ full ∧
      codelabShow m resp = Some shown ∧ Forall2 (λ h w, m !! sdDocId h = Some w) out shown.
  Proof.
    intros Hbox Hv Hvb HI Hr Hq Hsh Hlog Hu Ht Ha. destruct (cprog_once boxC X stop so HX m kvs Hkvs prog Hp) as (Ho & Hg & ph & Eph & Hph).
    pose proof (cordinary_elem boxC X stop so HX m kvs Hkvs prog Hp) as Hel.
    assert (Hw : Forall nothing_waits shards).
    { rewrite Eph in Hr. destruct (reserved_idle murmur n false reqsFirst cap Hn sortDocs o s0 nseg [ph] s Hv HI Hr Hq) as (sh' & H1 & H2); [by apply Forall_singleton|].
      by rewrite (shards_unique n false _ _ _ _ _ Hsh H1). }
    assert (EJ : mjoin [pipeProg prog] = pipeProg prog) by (cbn; by rewrite app_nil_r).
    edestruct (sane_search murmur n false reqsFirst cap Hn sortDocs sortBy o s0 nseg [pipeProg prog] s shards log2 (codelabReq asCSF X stop so query) order)
      as (full & out & HS & A1 & A2 & A3 & A4 & A5 & A6);
      [done|done|exact HI|exact Hr|done|by rewrite EJ|exact Hsh|done|by apply codelab_plain|by apply codelab_sane|done|by rewrite EJ|done|].
    rewrite EJ in A5, A6. cbn [codelabReq rqOpts ScoringCriteria ReverseOrder OutputOffset MaxOutputs rqTokens] in *.
    assert (HA : ∀ h, h ∈ full → ∃ id w doc x, id ≠ "0" ∧ codelab_doc boxC X stop so m id w doc ∧ (∀ t, t ∈ Tokens X stop so query [] → t ∈ Text <$> Keywords doc) ∧
       (let i := shard_for murmur n (DocId doc) (cwText w) in
           describes log2 o (shard_total shards i) (shard_docs murmur n i (ordinary (pipeProg prog))) (Tokens X stop so query []) doc x) ∧
       sdDocId h = id ∧ sdContent h = cwText w ∧ sdScores h = codelabScore asCSF x (boxC (mkCSF (cwTime w) (cwReposts w)))).
    { intros h Hh. destruct (A5 h Hh) as (d & f & ct & a & fo & x & Hc & Hwd & Htold & Hsc & ->).
      apply Hel in Hc as [Hc|(i & w & doc & H0 & H1 & Hc & H2 & H3)]; [done|]. injection Hc as -> -> -> -> ->.
      exists i, w, doc, x. split; [done|]. split; [done|]. split; [by apply codelab_wanted|]. split; [exact Htold|].
      cbn [entry_for sdDocId sdScores sdContent sdFields]. destruct Htold as (kws & _ & Hid & _).
      split; [congruence|done]. }
    destruct (cshow_lem (Tokens X stop so query []) false (zlen full) out) as (shown & E1 & E2).
    { intros h Hh. assert (h ∈ full) as Hf by by eapply elem_of_submseteq.
      destruct (HA h Hf) as (id & w & doc & x & _ & [? _] & _ & _ & -> & ? & _). by exists w. }
    exists full, out, shown. eexists. split; [exact HS|]. split; [reflexivity|]. split; [|done].
    split; [done|]. split; [done|]. split; [exact HA|].
    intros id w doc H0 Hd Htok. destruct Hd as [Hd1 Hd2]. destruct (segDoc_good _ _ _ _ _ _ HX Hd2) as [G1 G2].
    destruct (table_entry id w Hd1) as [_ Hrp].
    edestruct (A6 doc (boxC (mkCSF (cwTime w) (cwReposts w))) (cwText w) INil false) as (x & Hx1 & Hx2).
    - apply Hel. right. by exists id, w, doc.
    - by apply codelab_wanted.
    - intros x _. unfold codelabScore. by rewrite Hbox.
    - apply elem_of_list_fmap. eexists. split; [|exact Hx2]. cbn. destruct Hx1 as (kws & _ & Hid & _). congruence.
  Qed.

  Theorem codelab_any_time sortDocs o s0 nseg log2 sortBy ccap clients tl tr shards ls fs ps ans query t0 :
    valid_sort sortDocs → Init o = Some s0 →
    frun log2 sortBy (Z.to_nat n) ccap ls (fInit (Z.to_nat n) clients tl tr shards) = Some fs →
    written_by (pipeStep murmur n false reqsFirst cap) (pipeInit n nseg [pipeProg prog]) sortDocs s0 false n (fWorlds fs) ps →
    valid_sortBy sortBy → ans ∈ fAnswers fs → fReqs fs !! faSearch ans = Some (codelabReq asCSF X stop so query, t0) →
    usual_log2 log2 → usual_history o (pipeProg prog) →
    Tokens X stop so query [] ≠ [] →
    ∃ full out shown, faResp ans = mkResp (Tokens X stop so query []) false (zlen full) (Some out) ∧
      (∀ h, h ∈ full → ∃ id w doc, id ≠ "0" ∧ codelab_doc boxC X stop so m id w doc ∧ (∀ t, t ∈ Tokens X stop so query [] → t ∈ Text <$> Keywords doc) ∧
         sdDocId h = id ∧ sdContent h = cwText w) ∧
      NoDup (sdDocId <$> full) ∧ Forall2 same_scores out (page 0 100 full) ∧ out ⊆+ full ∧
      codelabShow m (faResp ans) = Some shown ∧ Forall2 (λ h w, m !! sdDocId h = Some w) out shown.
  Proof.
    intros Hv HI Hf HW Hvb Ha Hrq Hlog Hu Ht. destruct (cprog_once boxC X stop so HX m kvs Hkvs prog Hp) as (_ & Hg & _).
    pose proof (cprog_elem boxC X stop so HX m kvs Hkvs prog Hp) as Hel.
    pose proof (cprog_ids boxC X stop so HX m kvs Hkvs prog Hp) as Hnd.
    assert (EJ : mjoin [pipeProg prog] = pipeProg prog) by (cbn; by rewrite app_nil_r).
    destruct (during_lem murmur n false reqsFirst cap Hn sortDocs o s0 nseg [pipeProg prog] Hv HI) with
      (log2 := log2) (sortBy := sortBy) (ccap := ccap) (clients := clients) (tl := tl) (tr := tr) (shards := shards) (ls := ls) (fs := fs) (ps := ps)
      (ans := ans) (req := codelabReq asCSF X stop so query) (t0 := t0) as (full & out & E & (P1 & P2 & P3) & A1 & A2);
      [by rewrite EJ|done|exact Hf|exact HW|done|done|by apply codelab_plain| |].
    { eapply (numbers_during murmur n false reqsFirst cap Hn sortDocs o s0 nseg [pipeProg prog]); [done|exact HI|by rewrite EJ|exact HW| |by apply codelab_sane|done|by rewrite EJ].
      destruct (codelab_plain o query Ht) as (_ & _ & _ & ? & ? & ?). by apply plain_answerable. }
    rewrite EJ in A1, A2.
    assert (Hone : ∀ id w doc, codelab_doc boxC X stop so m id w doc →
      only_call (pipeProg prog) (DocId doc) (EIndex doc (boxC (mkCSF (cwTime w) (cwReposts w))) (cwText w) INil false)).
    { intros i w doc Hd. eapply only_call_once; [exact Hnd| |done]. apply Hel. right. exists i, w, doc.
      destruct (segDoc_good _ _ _ _ _ _ HX (proj2 Hd)). done. }
    assert (HA : ∀ h, h ∈ full → ∃ id w doc, id ≠ "0" ∧ codelab_doc boxC X stop so m id w doc ∧ (∀ t, t ∈ Tokens X stop so query [] → t ∈ Text <$> Keywords doc) ∧
         sdDocId h = id ∧ sdContent h = cwText w).
    { intros h Hh. destruct (A1 h Hh) as (d & f & ct & a & fo & d' & f' & ct' & a' & fo' & C1 & Hwd & C2 & Hid & Hs1 & Hs2 & Hs3).
      apply Hel in C1 as [C1|(i & w & doc & D1 & C1 & D2 & D3)]; [done|]. injection C1 as -> -> -> -> ->.
      apply Hel in C2 as [C2|(i' & w' & doc' & D1' & C2 & D2' & D3')]; [done|]. injection C2 as -> -> -> -> ->.
      assert (i' = i) as -> by congruence. assert (w' = w) as -> by (destruct D1, D1'; congruence).
      assert (doc' = doc) as -> by (destruct D1, D1'; congruence).
      exists i, w, doc. split; [|split; [done|]; split; [by apply codelab_wanted|]; split; [congruence|by apply Hs3]].
      intros ->. destruct (A2 doc _ _ _ _ (Hone _ _ _ D1)) as (_ & B & _). destruct B as [_ (ww & j & sh & W1 & W2 & W3 & _)].
      { apply elem_of_list_fmap. exists h. done. }
      apply written_by_log in HW as (V1 & _ & V3). destruct (Forall2_lookup_r _ _ _ _ _ V3 W1) as (p & Hp1 & Hp2).
      destruct (C15_pipe_lem murmur n false reqsFirst cap sortDocs o s0 nseg [pipeProg prog] p (Z.of_nat j) (shIx sh) log2) as [Hz _];
        [done|by apply Forall_singleton|by apply (V1 _ _ Hp1)|done|by apply (proj2 Hp2)|]. rewrite D3 in W3. congruence. }
    destruct (cshow_lem (Tokens X stop so query []) false (zlen full) out) as (shown & E1 & E2).
    { intros h Hh. assert (h ∈ full) as Hff by by eapply elem_of_submseteq.
      destruct (HA h Hff) as (id & w & doc & _ & [? _] & _ & -> & ?). by exists w. }
    exists full, out, shown. rewrite E. split; [done|]. split; [exact HA|]. split; [|done].
    apply NoDup_filters. intros id Hid. apply elem_of_list_fmap in Hid as (h & -> & Hh).
    destruct (HA h Hh) as (i & w & doc & _ & Hd & _ & Hi & _).
    destruct (A2 doc _ _ _ _ (Hone _ _ _ Hd)) as (_ & _ & _ & B). destruct (segDoc_good _ _ _ _ _ _ HX (proj2 Hd)) as [_ Hid].
    rewrite Hi, <- Hid. exact B.
  Qed.
End Run.

(** * examples/pinyin_weibo *)
Section Pinyin.
  Context (X : Ext) (stop : gset string) (so : SegOpts).
  Notation toks l := (mjoin ((λ buf, (λ t, mkTok t []) <$> PinYin X stop so buf) <$> l)).
  Lemma pin_loop lines : ∀ acc k i buf, lines !! i = Some buf →
    pinLoop X stop so lines acc k !! (2 * i)%nat = Some (pretty (k + 2 * i)%nat, mkData "" INil (acc ++ toks (take (S i) lines)) [] (IStr buf)) ∧
    pinLoop X stop so lines acc k !! (2 * i + 1)%nat = Some (pretty (k + 2 * i + 1)%nat, mkData buf INil (acc ++ toks (take (S i) lines)) [] INil).
  Proof.
    induction lines as [|l lines IH]; intros acc k i buf; [done|]. destruct i as [|i]; intros Hl.
    - injection Hl as ->. rewrite !Nat.mul_0_r, !Nat.add_0_r. cbn [pinLoop lookup list_lookup firstn]. rewrite fmap_cons. cbn. rewrite app_nil_r. done.
    - cbn [pinLoop]. replace (2 * S i)%nat with (S (S (2 * i))) by lia. replace (S (S (2 * i)) + 1)%nat with (S (S (2 * i + 1))) by lia.
      cbn [lookup list_lookup]. destruct (IH (acc ++ ((λ t, mkTok t []) <$> PinYin X stop so l)) (k + 2)%nat i buf Hl) as [H1 H2].
      rewrite <- !app_assoc in H1, H2. cbn [firstn]. rewrite fmap_cons. cbn [mjoin list_join].
      replace (k + S (S (2 * i)))%nat with (k + 2 + 2 * i)%nat by lia. done.
  Qed.
  Lemma pin_length lines : ∀ acc k, length (pinLoop X stop so lines acc k) = (2 * length lines)%nat.
  Proof. induction lines as [|l lines IH]; intros acc k; [done|]. cbn [pinLoop length]. rewrite IH. lia. Qed.
  Lemma pin_index lines i buf : lines !! i = Some buf → let tokens := toks (take (S i) lines) in
    length (pinIndex X stop so lines) = (2 * length lines)%nat ∧
    pinIndex X stop so lines !! (2 * i)%nat = Some (pretty (2 * i + 1)%nat, mkData "" INil tokens [] (IStr buf)) ∧
    pinIndex X stop so lines !! (2 * i + 1)%nat = Some (pretty (2 * i + 2)%nat, mkData buf INil tokens [] INil).
  Proof.
    intros Hl tokens. unfold pinIndex. split; [apply pin_length|]. destruct (pin_loop lines [] 1 i buf Hl) as [H1 H2].
    replace (2 * i + 1)%nat with (1 + 2 * i)%nat at 1 by lia. rewrite H1. split; [done|]. rewrite H2. do 3 f_equal. lia.
  Qed.
End Pinyin.
