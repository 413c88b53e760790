From Verif Require Import ModelSegment SpecIndexer SpecSegment.

(** * Splitting at spaces *)
Lemma splitSpace_nonempty s : splitSpace s ≠ [].
Proof. destruct s as [|c r]; [done|]. cbn [splitSpace]. destruct (Ascii.eqb c space); [done|]. by destruct (splitSpace r). Qed.

Lemma joined_cons w ws : ws ≠ [] → joined (w :: ws) = String.append w (String (Ascii.ascii_of_nat 32) (joined ws)).
Proof. by destruct ws. Qed.

Lemma splitSpace_words s : words s (splitSpace s).
Proof.
  induction s as [|c r (Hn & Hj & Hf)]; [repeat split; try done; by constructor|].
  split; [apply splitSpace_nonempty|]. cbn [splitSpace]. destruct (Ascii.eqb_spec c space) as [->|Hc].
  - split; [|by constructor]. rewrite joined_cons by done. cbn. by rewrite Hj.
  - destruct (splitSpace r) as [|w ws] eqn:E; [done|]. inversion Hf as [|?? Hw Hws]; subst.
    split; [|by constructor]. destruct ws as [|w' ws]; [done|]. by rewrite !joined_cons by done.
Qed.

Lemma append_sep_inj w1 : ∀ w2 r1 r2, no_space w1 → no_space w2 →
  String.append w1 (String (Ascii.ascii_of_nat 32) r1) = String.append w2 (String (Ascii.ascii_of_nat 32) r2) →
  w1 = w2 ∧ r1 = r2.
Proof.
  induction w1 as [|c w1 IH]; intros [|c2 w2] r1 r2 H1 H2 H; cbn in *.
  - by injection H as ->.
  - injection H as H _. destruct H2. congruence.
  - injection H as H _. destruct H1. congruence.
  - injection H as -> H. destruct H1, H2. by destruct (IH w2 r1 r2) as [-> ->].
Qed.
Lemma append_sep_no w r : ¬ no_space (String.append w (String (Ascii.ascii_of_nat 32) r)).
Proof. induction w as [|c w IH]; cbn; naive_solver. Qed.

Lemma words_unique ws1 : ∀ ws2 s, words s ws1 → words s ws2 → ws1 = ws2.
Proof.
  induction ws1 as [|w1 ws1 IH]; intros [|w2 ws2] s (H1 & H2 & H3) (K1 & K2 & K3); try done.
  apply Forall_cons_1 in H3 as [H3 H3']. apply Forall_cons_1 in K3 as [K3 K3'].
  destruct ws1 as [|v1 ws1], ws2 as [|v2 ws2].
  - cbn in *. congruence.
  - rewrite joined_cons in K2 by done. cbn in H2. subst. exfalso. by eapply append_sep_no.
  - rewrite joined_cons in H2 by done. cbn in K2. subst. exfalso. by eapply append_sep_no.
  - rewrite !joined_cons in * by done. rewrite <- K2 in H2. apply append_sep_inj in H2 as [-> H]; [|done..].
    f_equal. eapply IH; by split.
Qed.

Lemma sapp_cons x a b : String.append (String x a) b = String x (String.append a b).
Proof. done. Qed.
Lemma sapp_assoc a b c : String.append (String.append a b) c = String.append a (String.append b c).
Proof. induction a as [|x a IH]; [done|]. rewrite !sapp_cons. by rewrite IH. Qed.
Lemma sapp_nil a : String.append a "" = a.
Proof. induction a as [|x a IH]; [done|]. rewrite !sapp_cons. by rewrite IH. Qed.
Lemma joined_app a b : a ≠ [] → b ≠ [] →
  joined (a ++ b) = String.append (joined a) (String space (joined b)).
Proof.
  intros Ha Hb. induction a as [|w a IH]; [done|]. destruct a as [|v a].
  - change (([w] ++ b)) with (w :: b). by rewrite joined_cons by done.
  - change ((w :: v :: a) ++ b) with (w :: ((v :: a) ++ b)). rewrite !joined_cons by done. rewrite IH by done.
    by rewrite sapp_assoc.
Qed.
Lemma splitSpace_app a b : splitSpace (String.append a (String space b)) = splitSpace a ++ splitSpace b.
Proof.
  induction a as [|c a IH]; [done|]. rewrite sapp_cons. cbn [splitSpace]. rewrite IH.
  destruct (Ascii.eqb c space); [done|]. by destruct (splitSpace a) eqn:E; [destruct (splitSpace_nonempty a)|].
Qed.

(** The empty word occurs iff there is a leading, trailing or doubled space. *)
Lemma empty_word s : "" ∈ splitSpace s ↔
  s = "" ∨ (∃ r, s = String space r) ∨ (∃ r, s = String.append r (String space "")) ∨
  (∃ a b, s = String.append a (String space (String space b))).
Proof.
  split.
  - intros (a & b & E)%elem_of_list_split. destruct (splitSpace_words s) as (_ & <- & _). rewrite E.
    destruct a as [|w a].
    + cbn [app]. destruct b as [|v b]; [by left|]. right. left. rewrite joined_cons by done. by eexists.
    + right. right. rewrite joined_app by done. destruct b as [|v b]; [left; by eexists|].
      right. rewrite (joined_cons "") by done. by do 2 eexists.
  - intros [->|[[r ->]|[[r ->]|(a & b & ->)]]].
    + cbn. by left.
    + cbn. by left.
    + rewrite splitSpace_app. apply elem_of_app. right. cbn. by left.
    + rewrite splitSpace_app. apply elem_of_app. right. cbn. by left.
Qed.

(** * The split modes *)
Section Split.
  Variable stop : gset string.
  Variable o : SegOpts.

  Definition moreWords (rest : list string) (acc : string) : list string :=
    (fix go rest acc := match rest with
      | [] => [] | w :: rest' => String.append acc w :: go rest' (String.append acc w) end) rest acc.
  Fixpoint emitted (left : nat) (l : list string) (acc : string) : list string :=
    match left, l with
    | S left', w :: rest =>
      if seqb w "" then emitted left' rest acc
      else [w; String.append acc w] ++ (if Using o =? 6 then moreWords rest "" else []) ++
           emitted left' rest (String.append acc w)
    | _, _ => []
    end.
  Definition addAll (ks : list string) (st : TMap * Z) : TMap * Z := foldl (λ st k, addPos stop k st) st ks.

  Lemma moreLoop_emitted rest : ∀ acc st, moreLoop stop rest acc st = addAll (moreWords rest acc) st.
  Proof. induction rest as [|w rest IH]; intros acc st; [done|]. cbn. by rewrite IH. Qed.
  Lemma splitLoop_emitted left : ∀ l acc st, (left <= length l)%nat →
    splitLoop stop o left l acc st = Some (addAll (emitted left l acc) st).
  Proof.
    induction left as [|left IH]; intros l acc st Hl; [done|]. destruct l as [|w rest]; [cbn in Hl; lia|].
    cbn [splitLoop emitted length] in *. destruct (seqb w ""); [apply IH; lia|].
    rewrite IH by lia. unfold addAll at 2. rewrite !foldl_app. cbn [foldl].
    destruct (Using o =? 6); [|done]. by rewrite moreLoop_emitted.
  Qed.
  Lemma splitLoop_short left : ∀ l acc st, (length l < left)%nat → splitLoop stop o left l acc st = None.
  Proof.
    induction left as [|left IH]; intros l acc st Hl; [lia|]. destruct l as [|w rest]; [done|].
    cbn [splitLoop length] in *. destruct (seqb w ""); apply IH; lia.
  Qed.

  (** Positions are handed out one by one. *)
  Definition posInv (st : TMap * Z) : Prop :=
    0 <= st.2 ∧
    (∀ k l, st.1 !! k = Some l → l ≠ [] ∧ StronglySorted Z.lt l ∧ Forall (λ j, 1 <= j <= st.2) l) ∧
    (∀ j, 1 <= j <= st.2 → ∃ k l, st.1 !! k = Some l ∧ j ∈ l) ∧
    (∀ k1 k2 l1 l2 j, st.1 !! k1 = Some l1 → st.1 !! k2 = Some l2 → j ∈ l1 → j ∈ l2 → k1 = k2).

  Lemma sorted_snoc l (n : Z) : StronglySorted Z.lt l → Forall (λ j, 1 <= j <= n) l → StronglySorted Z.lt (l ++ [n + 1]).
  Proof.
    induction l as [|x l IH]; cbn; intros H1 H2; [by repeat constructor|].
    inversion H1; inversion H2; subst. constructor; [by apply IH|]. apply Forall_app. split; [done|].
    repeat constructor. lia.
  Qed.
  Lemma posInv_addPos k st : posInv st → posInv (addPos stop k st).
  Proof.
    unfold addPos. destruct (IsStopToken stop k); [done|]. destruct st as [m n]. intros (Hn & H1 & H2 & H3). cbn [fst snd] in *.
    assert (Hd : ∀ l, m !! k = l → StronglySorted Z.lt (default [] l ++ [n + 1]) ∧ Forall (λ j, 1 <= j <= n + 1) (default [] l ++ [n + 1])).
    { intros [l|] Hl; cbn.
      - destruct (H1 k l Hl) as (_ & Hs & Hf). split; [by apply sorted_snoc|]. apply Forall_app. split; [|repeat constructor; lia].
        eapply Forall_impl; [done|]. cbn. lia.
      - split; repeat constructor; lia. }
    destruct (Hd _ eq_refl) as [Hd1 Hd2]. clear Hd.
    assert (Hold : ∀ j, j ∈ default [] (m !! k) → ∃ l, m !! k = Some l ∧ j ∈ l).
    { intros j. destruct (m !! k) as [l|]; cbn; [eauto|by intros ?%elem_of_nil]. }
    assert (Hr : ∀ k' l j, m !! k' = Some l → j ∈ l → 1 <= j <= n).
    { intros k' l j Hl Hj. destruct (H1 k' l Hl) as (_ & _ & Hf). rewrite Forall_forall in Hf. by apply Hf. }
    split; [cbn; lia|]. split; [|split]; cbn [fst snd].
    - intros k' l. destruct (decide (k' = k)) as [->|Hk].
      + rewrite lookup_insert. intros [= <-]. split; [by destruct (default [] (m !! k))|]. done.
      + rewrite lookup_insert_ne by done. intros Hl. destruct (H1 k' l Hl) as (? & ? & Hf). split; [done|]. split; [done|].
        eapply Forall_impl; [done|]. cbn. lia.
    - intros j Hj. destruct (decide (j = n + 1)) as [->|].
      + exists k, (default [] (m !! k) ++ [n + 1]). rewrite lookup_insert. split; [done|]. apply elem_of_app. right. by left.
      + destruct (H2 j) as (k' & l & Hl & Hjl); [lia|]. destruct (decide (k' = k)) as [->|Hk].
        * exists k. eexists. rewrite lookup_insert. split; [done|]. rewrite Hl. cbn. apply elem_of_app. by left.
        * exists k', l. by rewrite lookup_insert_ne.
    - intros k1 k2 l1 l2 j. rewrite !lookup_insert_Some.
      assert (Hx : ∀ k' l, k ≠ k' → m !! k' = Some l → j ∈ l → j ∈ default [] (m !! k) ++ [n + 1] → False).
      { intros k' l Hne Hl Hj [Hj'|Hj']%elem_of_app.
        - apply Hold in Hj' as (l' & Hl' & Hj'). apply Hne. by eapply (H3 k k').
        - apply elem_of_list_singleton in Hj' as ->. specialize (Hr _ _ _ Hl Hj). lia. }
      intros [[<- <-]|[? Hl1]] [[<- <-]|[? Hl2]] Hj1 Hj2; [done|exfalso; by eapply Hx|exfalso; by eapply Hx|by eapply H3].
  Qed.
  Lemma posInv_addAll ks : ∀ st, posInv st → posInv (addAll ks st).
  Proof. induction ks as [|k ks IH]; intros st H; [done|]. cbn. by apply IH, posInv_addPos. Qed.
  Lemma posInv_empty : posInv (∅, 0).
  Proof.
    split; [done|]. cbn [fst snd]. split; [by intros ?? ?%lookup_empty_Some|]. split; [lia|].
    by intros ????? ?%lookup_empty_Some.
  Qed.

  Lemma addAll_dom ks : ∀ st k, k ∈ dom (addAll ks st).1 ↔ k ∈ dom st.1 ∨ (k ∈ ks ∧ k ∉ stop).
  Proof.
    induction ks as [|w ks IH]; intros st k; [cbn; rewrite elem_of_nil; naive_solver|].
    change (addAll (w :: ks) st) with (addAll ks (addPos stop w st)). rewrite IH, elem_of_cons.
    unfold addPos, IsStopToken. destruct (bool_decide_reflect (w ∈ stop)); [naive_solver|].
    cbn [fst]. rewrite dom_insert, elem_of_union, elem_of_singleton. naive_solver.
  Qed.

  Lemma glued_cons w ws : glued (w :: ws) = String.append w (glued ws).
  Proof. done. Qed.
  Lemma moreWords_spec k rest : ∀ acc, k ∈ moreWords rest acc ↔
    ∃ j, (0 < j <= length rest)%nat ∧ k = String.append acc (glued (take j rest)).
  Proof.
    induction rest as [|w rest IH]; intros acc.
    { cbn. rewrite elem_of_nil. split; [done|]. intros (j & ? & _). lia. }
    change (moreWords (w :: rest) acc) with (String.append acc w :: moreWords rest (String.append acc w)).
    rewrite elem_of_cons, IH. cbn [length]. split.
    - intros [->|(j & Hj & ->)].
      + exists 1%nat. split; [lia|]. cbn [take]. rewrite take_0, glued_cons. change (glued []) with "". by rewrite sapp_nil.
      + exists (S j). split; [lia|]. cbn [take]. by rewrite glued_cons, sapp_assoc.
    - intros (j & Hj & ->). destruct j as [|j]; [lia|]. cbn [take]. rewrite glued_cons. destruct j as [|j].
      + left. rewrite take_0. change (glued []) with "". by rewrite sapp_nil.
      + right. exists (S j). split; [lia|]. by rewrite sapp_assoc.
  Qed.

  Definition cand (left : nat) (l : list string) (acc k : string) : Prop :=
    ∃ i w, (i < left)%nat ∧ l !! i = Some w ∧ w ≠ "" ∧
      (k = w ∨ k = String.append acc (glued (take (S i) l)) ∨
       (Using o = 6 ∧ ∃ j, (S i < j <= length l)%nat ∧ k = glued (drop (S i) (take j l)))).
  Lemma emitted_spec left k : ∀ l acc, k ∈ emitted left l acc ↔ cand left l acc k.
  Proof.
    induction left as [|left IH]; intros l acc.
    { cbn. rewrite elem_of_nil. split; [done|]. intros (i & w & ? & _). lia. }
    destruct l as [|w l].
    { cbn. rewrite elem_of_nil. split; [done|]. by intros (i & w & _ & ? & _). }
    assert (Hsh : ∀ acc', String.append acc w = acc' → cand left l acc' k ↔
        ∃ i v, (S i < S left)%nat ∧ (w :: l) !! S i = Some v ∧ v ≠ "" ∧
          (k = v ∨ k = String.append acc (glued (take (S (S i)) (w :: l))) ∨
           (Using o = 6 ∧ ∃ j, (S (S i) < j <= length (w :: l))%nat ∧ k = glued (drop (S (S i)) (take j (w :: l)))))).
    { intros acc' <-. unfold cand. split; intros (i & v & Hi & Hv & Hne & H); exists i, v; (split; [lia|]); (split; [done|]); (split; [done|]).
      - destruct H as [H|[H|(H6 & j & Hj & H)]]; [by left| |].
        + right. left. change (take (S (S i)) (w :: l)) with (w :: take (S i) l). by rewrite glued_cons, <- sapp_assoc.
        + right. right. split; [done|]. exists (S j). split; [cbn; lia|]. done.
      - destruct H as [H|[H|(H6 & j & Hj & H)]]; [by left| |].
        + right. left. change (take (S (S i)) (w :: l)) with (w :: take (S i) l) in H. by rewrite glued_cons, <- sapp_assoc in H.
        + right. right. split; [done|]. destruct j as [|j]; [lia|]. exists j. cbn [length] in Hj. split; [lia|]. done. }
    cbn [emitted]. destruct (seqb w "") eqn:E.
    - apply seqb_eq in E as ->. rewrite IH, (Hsh acc) by apply sapp_nil. split.
      + intros (i & v & H). by exists (S i), v.
      + intros ([|i] & v & Hi & Hv & Hne & H); [cbn in Hv; congruence|]. exists i, v. done.
    - apply seqb_neq in E. rewrite !elem_of_app, IH, (Hsh (String.append acc w)) by done. split.
      + intros [H|[H|(i & v & H)]].
        * exists 0%nat, w. split; [lia|]. split; [done|]. split; [done|].
          apply elem_of_cons in H as [->|H%elem_of_list_singleton]; [by left|]. right. left. rewrite H.
          cbn [take]. rewrite take_0, glued_cons. change (glued []) with "". by rewrite sapp_nil.
        * destruct (Z.eqb_spec (Using o) 6); [|by apply elem_of_nil in H].
          apply moreWords_spec in H as (j & Hj & ->). exists 0%nat, w. split; [lia|]. split; [done|]. split; [done|].
          right. right. split; [done|]. exists (S j). split; [cbn; lia|]. done.
        * by exists (S i), v.
      + intros ([|i] & v & Hi & Hv & Hne & H); [|by right; right; exists i, v].
        injection Hv as ->. destruct H as [->|[->|(H6 & j & Hj & ->)]].
        * left. by left.
        * left. right. apply elem_of_list_singleton. cbn [take]. rewrite take_0, glued_cons. change (glued []) with "". by rewrite sapp_nil.
        * right. left. rewrite H6. cbn [Z.eqb]. apply moreWords_spec. destruct j as [|j]; [lia|]. cbn [length] in Hj.
          exists j. split; [lia|]. done.
  Qed.

  Lemma ForSplitData_eq ws num : num <= zlen ws →
    ForSplitData stop o ws num = Some (addAll (emitted (Z.to_nat num) ws "") (∅, 0)).
  Proof. unfold zlen. intros. apply splitLoop_emitted. lia. Qed.
  Lemma ForSplitData_panics ws num : ForSplitData stop o ws num = None ↔ zlen ws < num.
  Proof.
    split.
    - intros H. destruct (Z.lt_ge_cases (zlen ws) num); [done|]. by rewrite ForSplitData_eq in H.
    - unfold zlen. intros. apply splitLoop_short. lia.
  Qed.
  Lemma ForSplitData_lem ws m n : ForSplitData stop o ws (zlen ws) = Some (m, n) →
    (∀ k, is_Some (m !! k) ↔ split_keyword (Using o = 6) ws k ∧ k ∉ stop) ∧
    (∀ k l, m !! k = Some l → l ≠ [] ∧ StronglySorted Z.lt l) ∧
    (∀ j, 1 <= j <= n ↔ ∃ k l, m !! k = Some l ∧ j ∈ l) ∧
    (∀ k1 k2 l1 l2 j, m !! k1 = Some l1 → m !! k2 = Some l2 → j ∈ l1 → j ∈ l2 → k1 = k2).
  Proof.
    rewrite ForSplitData_eq by done. intros [= E].
    pose proof (posInv_addAll (emitted (Z.to_nat (zlen ws)) ws "") _ posInv_empty) as Hp.
    pose proof (addAll_dom (emitted (Z.to_nat (zlen ws)) ws "") (∅, 0)) as Hd.
    rewrite E in Hp, Hd. destruct Hp as (Hn & H1 & H2 & H3). cbn [fst snd] in *.
    split; [|split; [|split]].
    - intros k. rewrite <- elem_of_dom, Hd, emitted_spec, dom_empty, elem_of_empty. unfold cand, split_keyword, zlen.
      rewrite Nat2Z.id. split.
      + intros [[]|[(i & w & _ & H) ?]]. split; [|done]. by exists i, w.
      + intros [(i & w & Hw & H) ?]. right. split; [|done]. exists i, w. split; [by eapply lookup_lt_Some|done].
    - intros k l Hl. destruct (H1 k l Hl) as (? & ? & _). done.
    - intros j. split; [apply H2|]. intros (k & l & Hl & Hj). destruct (H1 k l Hl) as (_ & _ & Hf).
      rewrite Forall_forall in Hf. by apply Hf.
    - exact H3.
  Qed.
End Split.

(** * The map of a document *)
Section Doc.
  Variable X : Ext.
  Variable stop : gset string.
  Variable o : SegOpts.
  Hypothesis Hrange : valid_range X.

  Lemma addTokens_lookup ts : ∀ m k, k ∉ stop →
    addTokens stop ts m !! k =
      match last (filter (λ t, tkText t = k) ts) with Some t => Some (tkLocs t) | None => m !! k end.
  Proof.
    induction ts as [|t ts IH] using rev_ind; intros m k Hk; [done|].
    unfold addTokens. rewrite foldl_app. cbn [foldl]. fold (addTokens stop ts m).
    rewrite filter_app. unfold IsStopToken. destruct (decide (tkText t = k)) as [<-|Hne].
    - rewrite bool_decide_eq_false_2 by done. rewrite lookup_insert, filter_cons_True by done. by rewrite filter_nil, last_snoc.
    - rewrite (filter_cons_False _ t) by done. rewrite filter_nil, app_nil_r.
      case_bool_decide; [by apply IH|]. rewrite lookup_insert_ne by done. by apply IH.
  Qed.
  Lemma addTokens_stop ts : ∀ m k, k ∈ stop → addTokens stop ts m !! k = m !! k.
  Proof.
    induction ts as [|t ts IH]; intros m k Hk; [done|]. cbn. unfold IsStopToken at 2.
    case_bool_decide; [by apply IH|]. unfold addTokens in IH. rewrite IH by done. apply lookup_insert_ne. naive_solver.
  Qed.
  Lemma addSegments_stop sg : ∀ m k, k ∈ stop → addSegments stop sg m !! k = m !! k.
  Proof.
    induction sg as [|t ts IH]; intros m k Hk; [done|]. cbn. unfold IsStopToken at 2.
    case_bool_decide; [by apply IH|]. unfold addSegments in IH. rewrite IH by done. apply lookup_insert_ne. naive_solver.
  Qed.
  Lemma addPin_stop l : ∀ i m k, k ∈ stop → addPin stop i l m !! k = m !! k.
  Proof.
    induction l as [|w l IH]; intros i m k Hk; [done|]. cbn. rewrite IH by done. unfold IsStopToken.
    case_bool_decide; [done|]. apply lookup_insert_ne. naive_solver.
  Qed.

  Lemma defaultTokens_eq content : ∃ m n, defaultTokens stop o content = Some (m, n) ∧
    ForSplitData stop o (splitSpace content) (zlen (splitSpace content)) = Some (m, n).
  Proof.
    unfold defaultTokens. destruct (Z.ltb_spec 0 (zlen (splitSpace content))) as [_|Hz].
    2:{ pose proof (splitSpace_nonempty content). unfold zlen in Hz. destruct (splitSpace content); [done|]. cbn in Hz. lia. }
    rewrite ForSplitData_eq by done. destruct (addAll _ _ _) as [m n] eqn:E. exists m, n. cbn.
    rewrite (right_id_L ∅ (∪) m). done.
  Qed.

  (** The map before the user tokens: what comes from the text. *)
  Definition textMap (d : DocData) : option (TMap * Z) :=
    if seqb (ddContent d) "" then Some (∅, 0)
    else if (NotUseGse o && (Using o =? 0)) || (Using o =? 4)%Z then defaultTokens stop o (toLower X (ddContent d))
    else if (Using o =? 0) || (Using o =? 1) then
      Some (addSegments stop (modeSegment X (ddContent d)) ∅, zlen (modeSegment X (ddContent d)))
    else if Using o =? 2 then Some (∅, 0)
    else
      let content := toLower X (ddContent d) in
      let '(m0, n0) :=
        if Using o =? 3 then (addSegments stop (modeSegment X content) ∅, zlen (modeSegment X content)) else (∅, 0) in
      '(m, n) ← ForSplitData stop o (explode X content) (zlen (explode X content)); Some (m ∪ m0, n0 + n).
  Definition userTokens (d : DocData) : list TokenData :=
    if negb (seqb (ddContent d) "") && (Using o =? 1) then [] else ddTokens d.

  Lemma makeTokensMap_eq d : makeTokensMap X stop o d =
    ('(m, n) ← textMap d;
     let m1 := addTokens stop (userTokens d) m in
     let n1 := n + zlen (userTokens d) in
     if PinYinOpt o then Some (addPin stop 0 (PinYin X stop o (ddContent d)) m1, n1 + zlen (PinYin X stop o (ddContent d)))
     else Some (m1, n1)).
  Proof.
    unfold makeTokensMap, textMap, userTokens, segmenterData, splitData.
    destruct (NotUseGse o) eqn:E1; destruct (Z.eqb_spec (Using o) 0) as [E2|E2]; cbn [andb orb negb].
    all: destruct (seqb (ddContent d) "") eqn:E3; cbn [andb orb negb].
    all: try rewrite E2; cbn [Z.eqb andb orb negb Pos.eqb].
    all: repeat match goal with
      | |- context [Z.eqb (Using o) ?k] => destruct (Z.eqb_spec (Using o) k) as [?H|?H]; cbn [andb orb negb]
      end; try lia.
    all: try (destruct (defaultTokens _ _ _) as [[? ?]|]; cbn).
    all: try (destruct (ForSplitData _ _ _ _) as [[? ?]|]; cbn).
    all: try reflexivity.
    all: cbn; change (zlen (@nil TokenData)) with 0; rewrite ?Z.add_0_r, ?Z.add_0_l; try reflexivity.
  Qed.

  Lemma textMap_total d : is_Some (textMap d).
  Proof.
    unfold textMap. destruct (seqb _ _); [done|]. destruct (_ || _).
    { destruct (defaultTokens_eq (toLower X (ddContent d))) as (m & n & -> & _). done. }
    destruct (_ || _); [done|]. destruct (Using o =? 2); [done|].
    rewrite ForSplitData_eq by done. cbn. destruct (Using o =? 3); destruct (addAll _ _ _); cbn; done.
  Qed.
  Lemma textMap_stop d m n k : textMap d = Some (m, n) → k ∈ stop → m !! k = None.
  Proof.
    intros H Hk. unfold textMap in H.
    assert (Hsp : ∀ ws m n, ForSplitData stop o ws (zlen ws) = Some (m, n) → m !! k = None).
    { intros ws m' n' Hs%ForSplitData_lem. destruct Hs as (H1 & _). apply eq_None_not_Some. rewrite H1. naive_solver. }
    destruct (seqb _ _); [by injection H as <- <-|]. destruct (_ || _).
    { destruct (defaultTokens_eq (toLower X (ddContent d))) as (m' & n' & E & E'). rewrite E in H. injection H as <- <-. by eapply Hsp. }
    destruct (_ || _). { injection H as <- <-. by rewrite addSegments_stop. }
    destruct (Using o =? 2); [by injection H as <- <-|].
    destruct (ForSplitData _ _ _ _) as [[m' n']|] eqn:E; [|destruct (Using o =? 3); done]. apply Hsp in E.
    destruct (Using o =? 3); injection H as <- <-; apply lookup_union_None; (split; [done|]); [by rewrite addSegments_stop|done].
  Qed.
  Lemma makeTokensMap_total d : is_Some (makeTokensMap X stop o d).
  Proof. rewrite makeTokensMap_eq. destruct (textMap_total d) as [[m n] ->]. cbn. by destruct (PinYinOpt o). Qed.
  Lemma makeTokensMap_stop d m n k : makeTokensMap X stop o d = Some (m, n) → k ∈ stop → m !! k = None.
  Proof.
    rewrite makeTokensMap_eq. destruct (textMap d) as [[m0 n0]|] eqn:E; [|done]. intros H Hk. cbn in H.
    pose proof (textMap_stop d m0 n0 k E Hk). destruct (PinYinOpt o); injection H as <- <-; rewrite ?addPin_stop, ?addTokens_stop; done.
  Qed.

  (** * Labels *)
  Lemma addLabels_lookup ls : ∀ m k, foldl (addLabel stop o) m ls !! k =
    match m !! k with Some l => Some l | None => if decide (k ∈ ls ∧ (NotUseGse o = false → k ∉ stop)) then Some [] else None end.
  Proof.
    induction ls as [|l ls IH]; intros m k.
    { cbn. destruct (m !! k); [done|]. destruct (decide _) as [[Hk _]|]; [by apply elem_of_nil in Hk|done]. }
    cbn [foldl]. rewrite IH. unfold addLabel, IsStopToken.
    assert (Hcase : ∀ b : bool, (b = true ↔ NotUseGse o = false ∧ l ∈ stop) →
      (if b then m else match m !! l with Some _ => m | None => <[l:=[]]> m end) !! k =
      match m !! k with Some x => Some x | None => if decide (k = l ∧ b = false) then Some [] else None end).
    { intros b Hb. destruct b.
      - destruct (m !! k); [done|]. by destruct (decide _) as [[]|].
      - destruct (m !! l) eqn:El.
        + destruct (m !! k) eqn:Ek; [done|]. destruct (decide _) as [[-> _]|]; [congruence|done].
        + destruct (decide (k = l)) as [->|Hne].
          * rewrite lookup_insert, El. by rewrite decide_True.
          * rewrite lookup_insert_ne by done. destruct (m !! k); [done|]. by destruct (decide _) as [[]|]. }
    rewrite Hcase. 2:{ rewrite andb_true_iff, negb_true_iff, bool_decide_eq_true. done. }
    destruct (m !! k); [done|].
    destruct (decide (k = l ∧ _)) as [[-> Hb]|Hb].
    - rewrite decide_True; [done|]. split; [by left|]. intros HN ?. apply andb_false_iff in Hb as [Hb|Hb].
      + apply negb_false_iff in Hb. congruence.
      + by apply bool_decide_eq_false in Hb.
    - apply decide_ext. rewrite elem_of_cons. split; [naive_solver|]. intros [[->|?] Hs]; [|done]. exfalso. apply Hb. split; [done|].
      apply andb_false_iff. destruct (NotUseGse o); [by left|]. right. apply bool_decide_eq_false. by apply Hs.
  Qed.

  (** * The entry *)
  Definition docMap (d : DocData) (m' : TMap) : Prop :=
    ∃ m n, makeTokensMap X stop o d = Some (m, n) ∧ m' = foldl (addLabel stop o) m (ddLabels d).
  Lemma segDoc_total id d : is_Some (segDoc X stop o id d).
  Proof. unfold segDoc. destruct (makeTokensMap_total d) as [[m n] ->]. done. Qed.
  Lemma segDoc_map id d doc : segDoc X stop o id d = Some doc →
    ∃ m, docMap d m ∧ DocId doc = id ∧ NoDup (Text <$> Keywords doc) ∧
    (∀ kw, kw ∈ Keywords doc → Frequency kw = f32_of_Z (zlen (Starts kw))) ∧
    (∀ k ls, has_keyword doc k ls ↔ m !! k = Some ls).
  Proof.
    unfold segDoc. destruct (makeTokensMap X stop o d) as [[m n]|] eqn:E; [|done]. intros [= <-].
    set (m' := foldl _ m (ddLabels d)). exists m'. split; [by exists m, n|]. cbn [DocId Keywords].
    split; [done|]. split; [|split].
    - rewrite <- list_fmap_compose. change (NoDup (fst <$> rangeMap X m')). rewrite (Hrange m'). apply NoDup_fst_map_to_list.
    - intros kw (kv & -> & _)%elem_of_list_fmap. done.
    - intros k ls. unfold has_keyword. cbn [Keywords]. rewrite <- elem_of_map_to_list, <- (Hrange m'). split.
      + intros (kw & ([k' l'] & -> & Hkv)%elem_of_list_fmap & <- & <-). done.
      + intros H. eexists. split; [apply elem_of_list_fmap; by exists (k, ls)|]. done.
  Qed.
  Lemma has_keyword_text doc k : (∃ ls, has_keyword doc k ls) ↔ k ∈ Text <$> Keywords doc.
  Proof.
    rewrite elem_of_list_fmap. split.
    - intros (ls & kw & H1 & H2 & H3). by exists kw.
    - intros (kw & H1 & H2). by exists (Starts kw), kw.
  Qed.
End Doc.
