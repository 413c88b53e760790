(** The pipeline: what is logged, what is still to come, and their sum. *)
From Verif Require Import ModelPipe SpecPipe ProofTopK ProofRoute.

Section Pipe.
  Context (murmur : string → Z) (n : Z) (only reqsFirst : bool) (cap : chan → nat).
  Notation callA := (callActs n reqsFirst).
  Notation hand := (handler murmur n only).
  Notation pst := (pstep murmur n only reqsFirst cap).
  Notation pSt := (procStep murmur n only reqsFirst cap).
  Notation loop1 := (flushLoop1 reqsFirst).

  (** Events that a list of actions leads to *)
  Definition evs0 (a : act) : list event := match a with ADo e => [e] | _ => [] end.
  Definition evsL (m : msg) : list event := match m with MSeg _ => [] | _ => mjoin (evs0 <$> hand m) end.
  Definition evs1 (a : act) : list event :=
    match a with ADo e => [e] | ASend _ m => evsL m | _ => [] end.
  Definition evsM (m : msg) : list event := mjoin (evs1 <$> hand m).
  Definition evs (a : act) : list event :=
    match a with ADo e => [e] | ASend _ m => evsM m | _ => [] end.
  Definition evsA (l : list act) : list event := mjoin (evs <$> l).
  Definition evsN (net : list (chan * msg)) : list event := mjoin (evsM ∘ snd <$> net).
  Definition evsC (cs : list ecall) : list event := mjoin ((λ c, evsA (callA c)) <$> cs).
  Definition evsP (ps : list proc) : list event := mjoin (evsA ∘ pActs <$> ps).
  Definition todo (s : pstate) : list event := evsP (sProcs s) ++ evsN (sNet s).

  Lemma evsA_app l1 l2 : evsA (l1 ++ l2) = evsA l1 ++ evsA l2.
  Proof. unfold evsA. by rewrite fmap_app, join_app. Qed.
  Lemma evsN_app l1 l2 : evsN (l1 ++ l2) = evsN l1 ++ evsN l2.
  Proof. unfold evsN. by rewrite fmap_app, join_app. Qed.
  Lemma evsC_app l1 l2 : evsC (l1 ++ l2) = evsC l1 ++ evsC l2.
  Proof. unfold evsC. by rewrite fmap_app, join_app. Qed.
  Lemma evsA_cons a l : evsA (a :: l) = evs a ++ evsA l.
  Proof. done. Qed.

  (** No request handler sends a segmenter request. *)
  Definition is_seg (m : msg) : bool := match m with MSeg _ => true | _ => false end.
  Lemma hand_sends m ch m' : ASend ch m' ∈ hand m → is_seg m' = false ∧ is_seg m = true.
  Proof.
    clear cap reqsFirst. destruct m as [c|i [d|] f|i id f|i o]; cbn; rewrite ?elem_of_app, ?elem_of_cons, ?elem_of_nil.
    - unfold segActs. destruct c as [d f ct a fo|id fo|]; [|by intros ?%elem_of_nil..].
      destruct (seqb (DocId d) "0").
      + destruct fo; [|by intros ?%elem_of_nil]. intros (i & E & _)%elem_of_list_fmap. by inversion E.
      + rewrite !elem_of_app, !elem_of_list_singleton. intros [E|[E|E]].
        * by inversion E.
        * destruct fo; [|by apply elem_of_nil in E]. apply elem_of_list_fmap in E as (i & E & _). by inversion E.
        * by inversion E.
    - destruct f; cbn; rewrite ?elem_of_cons, ?elem_of_nil; naive_solver.
    - destruct f; cbn; rewrite ?elem_of_cons, ?elem_of_nil; naive_solver.
    - destruct (seqb id "0"), f; cbn; rewrite ?elem_of_cons, ?elem_of_nil; naive_solver.
    - naive_solver.
  Qed.

  Lemma evs1_evs a : (∀ ch m, a = ASend ch m → is_seg m = false) → evs1 a = evs a.
  Proof.
    destruct a as [e|ch m| | | | |]; try done. intros H. specialize (H ch m eq_refl). cbn.
    unfold evsM, evsL. destruct m as [c|i d f|i id f|i o] eqn:E; [done|..]; rewrite <- E in *.
    all: assert (Hf : evs0 <$> hand m = evs1 <$> hand m);
      [apply list_fmap_ext; intros j x Hx; destruct x as [|ch' m'| | | | |]; try done;
       apply elem_of_list_lookup_2 in Hx; destruct (hand_sends _ _ _ Hx); by subst m
      |subst m; by f_equal].
  Qed.

  Lemma evsM_hand m : evsM m = evsA (hand m).
  Proof.
    unfold evsM, evsA. f_equal. apply list_fmap_ext. intros j x Hx. apply evs1_evs. intros ch m' ->.
    apply elem_of_list_lookup_2 in Hx. by destruct (hand_sends _ _ _ Hx).
  Qed.

  Lemma takeFirst_perm ch net m net' : takeFirst ch net = Some (m, net') → net ≡ₚ (ch, m) :: net'.
  Proof.
    revert m net'. induction net as [|[c m0] net IH]; intros m net'; [done|]. cbn.
    destruct (decide (c = ch)) as [->|]; [by injection 1 as -> ->|].
    destruct (takeFirst ch net) as [[m1 rest]|]; [|done]. cbn. injection 1 as -> <-.
    rewrite (IH m rest eq_refl). constructor.
  Qed.

  Lemma evsN_perm l1 l2 : l1 ≡ₚ l2 → evsN l1 ≡ₚ evsN l2.
  Proof. intros H. unfold evsN. by rewrite H. Qed.

  Lemma evsA_loop1 : evsA loop1 = [].
  Proof. unfold flushLoop1. by destruct reqsFirst. Qed.
  Lemma evsA_loop2 : evsA flushLoop2 = [].
  Proof. done. Qed.

  (** One step moves events from the future to the log, or starts a call. *)
  Lemma procStep_perm p net log p' net' log' : pSt p net log = Some (p', net', log') →
    pChan p' = pChan p ∧
    (∃ d, log' = log ++ d) ∧
    ((pActs p ≠ [] ∧ pCalls p' = pCalls p ∧ log' ++ evsA (pActs p') ++ evsN net' ≡ₚ log ++ evsA (pActs p) ++ evsN net) ∨
     (∃ ch m, pChan p = Some ch ∧ pActs p = [] ∧ takeFirst ch net = Some (m, net') ∧ p' = mkProc (Some ch) (pCalls p) (hand m) 0 true ∧
        log' = log) ∨
     (∃ c, pChan p = None ∧ pActs p = [] ∧ pCalls p = c :: pCalls p' ∧ p' = mkProc None (pCalls p') (callA c) 0 true ∧
        net' = net ∧ log' = log)).
  Proof.
    unfold procStep. destruct p as [ch calls acts reg ok]. cbn [pActs pChan pCalls pReg pOk].
    destruct acts as [|a rest].
    - destruct ch as [ch|].
      + destruct (takeFirst ch net) as [[m net1]|] eqn:E; [|done]. cbn. injection 1 as <- <- <-.
        split; [done|]. split; [exists []; by rewrite app_nil_r|]. right. left. by exists ch, m.
      + destruct calls as [|c cs]; [done|]. injection 1 as <- <- <-. cbn.
        split; [done|]. split; [exists []; by rewrite app_nil_r|]. right. right. by exists c.
    - intros H.
      assert (Hgen : ∀ l r ok' net1 log1, Some (mkProc ch calls l r ok', net1, log1) = Some (p', net', log') →
        (∃ d, log1 = log ++ d) → log1 ++ evsA l ++ evsN net1 ≡ₚ log ++ evsA (a :: rest) ++ evsN net →
        pChan p' = ch ∧ (∃ d, log' = log ++ d) ∧
        ((pCalls p' = calls ∧ log' ++ evsA (pActs p') ++ evsN net' ≡ₚ log ++ evsA (a :: rest) ++ evsN net))).
      { intros l r ok' net1 log1. injection 1 as <- <- <-. done. }
      assert (Hsame : ∃ d, log = log ++ d) by (exists []; by rewrite app_nil_r).
      destruct a as [e|c m| |c|c| |]; cbn zeta in H.
      + apply Hgen in H as (? & ? & ?); [naive_solver|by eexists|]. rewrite evsA_cons. cbn [evs].
        by rewrite <- !app_assoc.
      + destruct (decide _); [|done]. apply Hgen in H as (? & ? & ?); [naive_solver|done|].
        rewrite evsA_cons, evsN_app. cbn [evs]. change (evsN [(c, m)]) with (evsM m ++ []).
        rewrite app_nil_r. solve_Permutation.
      + apply Hgen in H as (? & ? & ?); [naive_solver|done|done].
      + apply Hgen in H as (? & ? & ?); [naive_solver|done|done].
      + apply Hgen in H as (? & ? & ?); [naive_solver|done|done].
      + apply Hgen in H as (? & ? & ?); [naive_solver|done|]. destruct ok; [done|].
        rewrite evsA_app, evsA_loop1. done.
      + apply Hgen in H as (? & ? & ?); [naive_solver|done|]. destruct ok; [done|]. done.
  Qed.

  (** ** All events: logged, started, and of calls not yet made *)
  Definition evsPr (p : proc) : list event := evsA (pActs p) ++ evsC (pCalls p).
  Definition evsAll (s : pstate) : list event := mjoin (evsPr <$> sProcs s) ++ evsN (sNet s).

  Lemma procs_insert {B} (f : proc → list B) ps k p p' : ps !! k = Some p →
    ∃ rest, mjoin (f <$> ps) ≡ₚ f p ++ rest ∧ mjoin (f <$> <[k := p']> ps) ≡ₚ f p' ++ rest.
  Proof.
    intros H. exists (mjoin (f <$> take k ps) ++ mjoin (f <$> drop (S k) ps)). split.
    - rewrite <- (take_drop_middle _ _ _ H) at 1. rewrite fmap_app, join_app. cbn. solve_Permutation.
    - rewrite insert_take_drop by (by eapply lookup_lt_Some). rewrite fmap_app, join_app. cbn. solve_Permutation.
  Qed.

  Lemma pstep_inv k s s' : pst k s = Some s' →
    ∃ p p' net' log', sProcs s !! k = Some p ∧ pSt p (sNet s) (sLog s) = Some (p', net', log') ∧
      s' = mkPState (<[k := p']> (sProcs s)) net' log'.
  Proof.
    unfold pstep. intros H. apply bind_Some in H as (p & Hp & H). apply bind_Some in H as ([[p' net'] log'] & Hs & H).
    injection H as <-. by exists p, p', net', log'.
  Qed.

  Lemma pstep_all k s s' : pst k s = Some s' → sLog s' ++ evsAll s' ≡ₚ sLog s ++ evsAll s.
  Proof.
    intros (p & p' & net' & log' & Hp & Hs & ->)%pstep_inv. unfold evsAll. cbn.
    destruct (procs_insert evsPr (sProcs s) k p p' Hp) as (rest & H1 & H2). rewrite H1, H2. clear H1 H2.
    destruct (procStep_perm _ _ _ _ _ _ Hs) as (_ & _ & [(_ & Hc & H)|[(ch & m & _ & Ha & Ht & -> & ->)|(c & _ & Ha & Hc & Hp' & -> & ->)]]).
    - unfold evsPr. rewrite Hc.
      transitivity ((log' ++ evsA (pActs p') ++ evsN net') ++ evsC (pCalls p) ++ rest); [solve_Permutation|].
      rewrite H. solve_Permutation.
    - unfold evsPr. cbn [pActs pCalls]. rewrite Ha.
      rewrite (evsN_perm _ _ (takeFirst_perm _ _ _ _ Ht)). change (evsN ((ch, m) :: net')) with (evsM m ++ evsN net').
      rewrite evsM_hand. change (evsA []) with (@nil event). solve_Permutation.
    - unfold evsPr. rewrite Hp'. cbn [pActs pCalls]. rewrite Ha, Hc.
      change (evsC (c :: pCalls p')) with (evsA (callA c) ++ evsC (pCalls p')).
      change (evsA []) with (@nil event). solve_Permutation.
  Qed.

  (** ** Weighted sums of events *)
  Section Weight.
    Context (om : event → Z).
    Definition W (l : list event) : Z := zsum (om <$> l).
    Lemma zsum_app l1 l2 : zsum (l1 ++ l2) = zsum l1 + zsum l2.
    Proof. unfold zsum. induction l1 as [|x l1 IH]; cbn; [done|]. rewrite IH. lia. Qed.
    Lemma W_app l1 l2 : W (l1 ++ l2) = W l1 + W l2.
    Proof. unfold W. by rewrite fmap_app, zsum_app. Qed.
    Lemma W_perm l1 l2 : l1 ≡ₚ l2 → W l1 = W l2.
    Proof. unfold W, zsum. induction 1; cbn; lia. Qed.
    Lemma W_join {B} (f : B → list event) l : W (mjoin (f <$> l)) = zsum ((W ∘ f) <$> l).
    Proof.
      induction l as [|x l IH]; [done|]. cbn [fmap list_fmap mjoin list_join]. rewrite W_app.
      change (zsum (((W ∘ f) x) :: ((W ∘ f) <$> l))) with (W (f x) + zsum ((W ∘ f) <$> l)). by rewrite <- IH.
    Qed.
  End Weight.

  Definition weight (req fin : counter) (k : Z) (e : event) : Z :=
    match e with EvInc c => (if decide (c = fin) then 1 else 0) - (if decide (c = req) then k else 0) | _ => 0 end.

  Lemma W_log req fin k log : W (weight req fin k) log = value log fin - k * value log req.
  Proof.
    unfold W, value, zlen, zsum. induction log as [|e log IH]; [cbn; lia|].
    rewrite !filter_cons. cbn [fmap list_fmap foldr]. rewrite IH.
    destruct e as [c| |]; cbn [weight isInc]; [|rewrite !decide_False by done; lia..].
    destruct (decide (c = fin)), (decide (c = req)); repeat first [rewrite bool_decide_true by done|rewrite bool_decide_false by done];
      repeat first [rewrite decide_True by done|rewrite decide_False by done]; cbn [length]; rewrite ?Nat2Z.inj_succ, ?Z.mul_succ_r; lia.
  Qed.

  Lemma zsum_zero {B} (f : B → Z) l : (∀ x, x ∈ l → f x = 0) → zsum (f <$> l) = 0.
  Proof. induction l as [|x l IH]; unfold zsum in *; intros H; cbn; [done|]. rewrite IH, H; [done|set_solver..]. Qed.
  Lemma zsum_const {B} (f : B → Z) l k : (∀ x, x ∈ l → f x = k) → zsum (f <$> l) = k * zlen l.
  Proof.
    unfold zlen, zsum. induction l as [|x l IH]; intros H; cbn; [lia|]. rewrite IH, H; [lia|set_solver..].
  Qed.
  Lemma zsum_ext {B} (f g : B → Z) l : (∀ x, x ∈ l → f x = g x) → zsum (f <$> l) = zsum (g <$> l).
  Proof. induction l as [|x l IH]; unfold zsum in *; intros H; cbn; [done|]. rewrite IH, H; [done|set_solver..]. Qed.

  (** ** The three pairs of counters *)
  Inductive pair := PDocs | PRems | PForced.
  Definition pReq pr := match pr with PDocs => NumIndexingReqs | PRems => NumRemovingReqs | PForced => NumForceUpdatingReqs end.
  Definition pFin pr := match pr with PDocs => NumDocsIndexed | PRems => NumDocsRemoved | PForced => NumDocsForceUpdated end.
  Definition pW pr := match pr with PDocs => docs_owed | PRems => removals_owed | PForced => forced_owed n end.
  Definition pK pr := match pr with PDocs => 1 | _ => n end.
  Notation wt pr := (W (weight (pReq pr) (pFin pr) (pK pr))).

  Hypothesis Hn : 1 <= n < 2^32.

  Lemma W_evsA om l : W om (evsA l) = zsum ((W om ∘ evs) <$> l).
  Proof. unfold evsA. by rewrite W_join. Qed.

  Lemma zlen_shards : zlen (shards n) = n.
  Proof. unfold shards, zlen. rewrite seqZ_length. lia. Qed.
  Lemma zlen_others i : 0 <= i < n → zlen (filter (λ j, j ≠ i) (shards n)) = n - 1.
  Proof.
    intros Hi. unfold shards, zlen.
    assert (H : seqZ 0 n ≡ₚ i :: filter (λ j, j ≠ i) (seqZ 0 n)).
    { apply NoDup_Permutation; [apply NoDup_seqZ|constructor; [rewrite elem_of_list_filter; tauto|apply NoDup_filter, NoDup_seqZ]|].
      intros j. rewrite elem_of_cons, elem_of_list_filter, elem_of_seqZ. destruct (decide (j = i)); naive_solver lia. }
    apply Permutation_length in H. rewrite seqZ_length in H. cbn in H. lia.
  Qed.

  Lemma shardOf_range id ct : 0 <= shardOf murmur n id ct < n.
  Proof. rewrite shardOf_mod by done. apply Z.mod_pos_bound. lia. Qed.

  Lemma seqb_decide {B} (a b : string) (x y : B) : (if seqb a b then x else y) = if decide (a = b) then x else y.
  Proof. destruct (seqb a b) eqn:E; [apply seqb_eq in E|apply seqb_neq in E]; by case_decide. Qed.

  Lemma wt_leaf pr m : is_seg m = false → wt pr (evsM m) = pW pr m.
  Proof.
    intros H. rewrite evsM_hand, W_evsA. destruct m as [c|i [d|] f|i id f|i o]; [done|..]; destruct pr; cbn;
      rewrite ?seqb_decide; repeat case_decide; try destruct f; done.
  Qed.

  Lemma wt_msg pr m : wt pr (evsM m) = pW pr m.
  Proof.
    destruct (is_seg m) eqn:Hs; [|by apply wt_leaf].
    destruct m as [c|i d f|i id f|i o]; try done. rewrite evsM_hand, W_evsA.
    destruct c as [d f ct a fo|id fo|]; [|by destruct pr..].
    cbn [handler segActs]. rewrite !seqb_decide. case_decide as H0.
    - destruct fo; [|destruct pr; cbn; by rewrite ?decide_True by done].
      rewrite <- list_fmap_compose.
      erewrite (zsum_const _ _ (match pr with PForced => 1 | _ => 0 end));
        [|intros i _; cbn -[evsM W]; rewrite wt_leaf by done; by destruct pr].
      rewrite zlen_shards. destruct pr; cbn; rewrite ?decide_True by done; lia.
    - rewrite !fmap_app, !zsum_app. cbn -[evsM W]. rewrite !wt_leaf by done.
      replace (zsum _) with (match pr with PForced => if fo then n - 1 else 0 | _ => 0 end).
      + destruct pr, fo; cbn; rewrite ?decide_False by done; lia.
      + destruct fo; [|by destruct pr]. rewrite <- list_fmap_compose.
        erewrite (zsum_const _ _ (match pr with PForced => 1 | _ => 0 end));
          [|intros i _; cbn -[evsM W]; rewrite wt_leaf by done; by destruct pr].
        rewrite zlen_others by apply shardOf_range. destruct pr; lia.
  Qed.

  Lemma mjoin_cons {B} (x : list B) ls : mjoin (x :: ls) = x ++ mjoin ls.
  Proof. done. Qed.

  Lemma wt_call pr c : wt pr (evsA (callA c)) = 0.
  Proof.
    destruct c as [d f ct a fo|id fo|]; cbn [callActs].
    - unfold indexActs, incs. rewrite W_evsA, seqb_decide, !fmap_app, !zsum_app. cbn -[evsM W]. rewrite wt_msg.
      destruct (decide (DocId d = "0")), pr, fo; cbn; rewrite ?decide_True, ?decide_False by done;
        repeat (case_decide; try congruence); lia.
    - unfold incs. rewrite W_evsA, !seqb_decide, !fmap_app, !zsum_app.
      assert (Hs : ∀ l, zsum (W (weight (pReq pr) (pFin pr) (pK pr)) ∘ evs <$>
          mjoin ((λ i, ASend (CIxRem i) (MRem i id fo) ::
            (if seqb id "0" then [] else [ASend (CRkRem i) (MRank i (RORemove id))])) <$> l)) =
        pW pr (MRem 0 id fo) * zlen l).
      { unfold zlen. induction l as [|i l IH]; [cbn; lia|]. rewrite fmap_cons, mjoin_cons.
        rewrite fmap_app, zsum_app, IH. cbn [length]. rewrite seqb_decide.
        assert (H0 : pW pr (MRem i id fo) = pW pr (MRem 0 id fo)) by by destruct pr.
        assert (H1 : pW pr (MRank i (RORemove id)) = 0) by by destruct pr.
        case_decide; cbn -[evsM W]; rewrite !wt_msg, ?H0, ?H1; lia. }
      rewrite Hs, zlen_shards.
      destruct pr, fo; cbn; repeat (case_decide; try congruence); cbn; repeat (case_decide; try congruence); lia.
    - rewrite !evsA_app, evsA_loop1, evsA_loop2, app_nil_r. cbn [app].
      unfold indexActs, incs. rewrite W_evsA, !fmap_app, !zsum_app. cbn -[evsM W]. rewrite wt_msg.
      destruct pr; cbn; repeat (case_decide; try congruence); lia.
  Qed.

  (** ** Requests are counted before they are sent *)
  Fixpoint goodA (pr : pair) (l : list act) : Prop :=
    match l with
    | [] => True
    | a :: l' => goodA pr l' ∧ (not_counted (pReq pr) l = true → wt pr (evsA l) = 0)
    end.

  Lemma not_counted_app c l1 l2 : not_counted c (l1 ++ l2) = not_counted c l1 || not_counted c l2.
  Proof. unfold not_counted. apply existsb_app. Qed.
  Lemma not_counted_false c l : not_counted c l = false ↔ ADo (EvInc c) ∉ l.
  Proof.
    unfold not_counted. induction l as [|a l IH]; [split; [by intros _ ?%elem_of_nil|done]|].
    cbn [existsb]. rewrite orb_false_iff, IH, not_elem_of_cons. apply and_iff_compat_r.
    destruct a as [[c'| |]| | | | | |]; try (split; [|done]; intros _; discriminate).
    rewrite bool_decide_eq_false. split; [intros H E; by injection E|by intros H ->].
  Qed.
  Lemma goodA_none pr l : not_counted (pReq pr) l = false → goodA pr l.
  Proof.
    induction l as [|a l IH]; [done|]. intros H. split; [|congruence]. apply IH.
    apply not_counted_false. apply not_counted_false in H. set_solver.
  Qed.
  Lemma wt_app pr l1 l2 : wt pr (evsA (l1 ++ l2)) = wt pr (evsA l1) + wt pr (evsA l2).
  Proof. by rewrite evsA_app, W_app. Qed.
  Definition idle_act (a : act) : Prop := match a with ADo _ | ASend _ _ => False | _ => True end.
  Lemma goodA_idle pr l1 l2 : Forall idle_act l1 → goodA pr l2 → goodA pr (l1 ++ l2).
  Proof.
    induction 1 as [|a l Ha Hl IH]; [done|]. intros H2. split; [by apply IH|]. cbn [app]. intros Hc.
    change (a :: l ++ l2) with ([a] ++ (l ++ l2)) in *. rewrite wt_app.
    rewrite not_counted_app in Hc.
    replace (not_counted (pReq pr) [a]) with false in Hc by (by destruct a).
    replace (wt pr (evsA [a])) with 0 by (by destruct a).
    destruct (l ++ l2) as [|b l'] eqn:E; [done|]. destruct (IH H2) as [_ H3]. by apply H3.
  Qed.
  Definition is_req (c : counter) : bool :=
    match c with NumIndexingReqs | NumRemovingReqs | NumForceUpdatingReqs => true | _ => false end.
  Lemma goodA_incs pr cs l : NoDup cs → Forall (λ c, is_req c = true) cs → not_counted (pReq pr) l = false →
    wt pr (evsA (((λ c, ADo (EvInc c)) <$> cs) ++ l)) = 0 → goodA pr (((λ c, ADo (EvInc c)) <$> cs) ++ l).
  Proof.
    intros Hnd Hf Hl. induction cs as [|c cs IH]; [intros _; by apply goodA_none|].
    rewrite NoDup_cons in Hnd. destruct Hnd as [Hc Hnd]. apply Forall_cons in Hf as [Hr Hf].
    intros H0. split; [|done]. cbn [app fmap list_fmap].
    destruct (decide (c = pReq pr)) as [->|Hne].
    - apply goodA_none. rewrite not_counted_app, Hl, orb_false_r. apply not_counted_false.
      rewrite elem_of_list_fmap. intros (c' & E & Hc'). by injection E as <-.
    - apply IH; try done.
      change (((λ c, ADo (EvInc c)) <$> c :: cs) ++ l) with ([ADo (EvInc c)] ++ (((λ c, ADo (EvInc c)) <$> cs) ++ l)) in H0.
      rewrite wt_app in H0.
      replace (wt pr (evsA [ADo (EvInc c)])) with 0 in H0; [by rewrite Z.add_0_l in H0|].
      cbn. rewrite (decide_False (P:=c = pReq pr)) by done. rewrite decide_False; [done|].
      intros ->. by destruct pr.
  Qed.

  Lemma goodA_hand pr m : goodA pr (hand m).
  Proof.
    apply goodA_none, not_counted_false. destruct m as [c|i [d|] f|i id f|i o]; cbn.
    - unfold segActs. destruct c as [d f ct a fo|id fo|]; [|apply not_elem_of_nil..].
      destruct (seqb (DocId d) "0"), fo; rewrite ?elem_of_app, ?elem_of_list_singleton, ?elem_of_list_fmap, ?elem_of_nil; naive_solver.
    - destruct pr, f; set_solver.
    - destruct pr, f; set_solver.
    - destruct pr, f, (seqb id "0"); set_solver.
    - set_solver.
  Qed.
  Lemma incs_shape id f c : is_req c = true → c ≠ NumForceUpdatingReqs → ∃ cs, incs id f c = (λ c, ADo (EvInc c)) <$> cs ∧
    NoDup cs ∧ Forall (λ c, is_req c = true) cs.
  Proof.
    intros Hc Hne. exists ((if seqb id "0" then [] else [c]) ++ (if f then [NumForceUpdatingReqs] else [])).
    unfold incs. destruct (seqb id "0"), f; cbn; repeat split; repeat constructor; try done; set_solver.
  Qed.
  Lemma idle_loop1 : Forall idle_act loop1.
  Proof. unfold flushLoop1. destruct reqsFirst; repeat constructor. Qed.
  Lemma idle_loop2 : Forall idle_act flushLoop2.
  Proof. repeat constructor. Qed.
  Lemma goodA_call pr c : goodA pr (callA c).
  Proof.
    pose proof (wt_call pr c) as H0. destruct c as [d f ct a fo|id fo|]; cbn [callActs] in *.
    - unfold indexActs in *.
      destruct (incs_shape (DocId d) fo NumIndexingReqs) as (cs & E & ? & ?); [done..|]. rewrite E in *.
      apply goodA_incs; try done.
    - destruct (incs_shape id fo NumRemovingReqs) as (cs & E & ? & ?); [done..|]. rewrite E in *.
      apply goodA_incs; try done. apply not_counted_false.
      rewrite elem_of_list_join. intros (l & Hl & (i & -> & _)%elem_of_list_fmap).
      apply elem_of_cons in Hl as [?|Hl]; [done|]. destruct (seqb id "0"); set_solver.
    - apply goodA_idle; [apply idle_loop1|]. unfold indexActs in *.
      destruct (incs_shape "0" true NumIndexingReqs) as (cs & E & ? & ?); [done..|]. rewrite E in *.
      rewrite <- app_assoc. apply goodA_incs; try done.
      rewrite evsA_app, evsA_loop1 in H0. by rewrite <- app_assoc in H0.
  Qed.

  (** ** A property of action lists that every step preserves *)
  Definition acts_closed (P : list act → Prop) : Prop :=
    P [] ∧ (∀ a l, P (a :: l) → P l) ∧ (∀ m, P (hand m)) ∧ (∀ c, P (callA c)) ∧
    (∀ l1 l2, Forall idle_act l1 → P l2 → P (l1 ++ l2)).
  Lemma pstep_acts P k s s' : acts_closed P → pst k s = Some s' → Forall (λ p, P (pActs p)) (sProcs s) →
    Forall (λ p, P (pActs p)) (sProcs s').
  Proof.
    intros (P0 & Ptl & Phd & Pcl & Pid) (p & p' & net' & log' & Hp & Hs & ->)%pstep_inv HF. cbn.
    apply Forall_insert; [done|]. pose proof (Forall_lookup_1 _ _ _ _ HF Hp) as HP. cbn in HP.
    unfold procStep in Hs. destruct (pActs p) as [|a rest] eqn:Ea.
    - destruct (pChan p) as [ch|].
      + destruct (takeFirst ch (sNet s)) as [[m net1]|]; [|done]. cbn in Hs. injection Hs as <- <- <-. apply Phd.
      + destruct (pCalls p) as [|c cs]; [done|]. injection Hs as <- <- <-. apply Pcl.
    - assert (P rest) by by eapply Ptl.
      destruct a as [e|ch m| |c|c| |]; cbn zeta in Hs; [|destruct (decide _); [|done]|..]; injection Hs as <- <- <-; cbn; try done.
      + destruct (pOk p); [done|]. apply (Pid loop1); [apply idle_loop1|done].
      + destruct (pOk p); [done|]. apply (Pid flushLoop2); [apply idle_loop2|done].
  Qed.
  Lemma goodA_closed pr : acts_closed (goodA pr).
  Proof.
    repeat split.
    - by intros a l [? _].
    - apply goodA_hand.
    - apply goodA_call.
    - apply goodA_idle.
  Qed.

  Notation reachp nseg progs := (pipe_reach murmur n only reqsFirst cap nseg progs).

  Lemma reach_acts P nseg progs s : acts_closed P → reachp nseg progs s → Forall (λ p, P (pActs p)) (sProcs s).
  Proof.
    intros HP H. unfold pipe_reach in H. apply (rtc_ind_r (λ s', Forall (λ p, P (pActs p)) (sProcs s')) (pipeInit n nseg progs)) in H;
      [done| |].
    - cbn. destruct HP as [P0 _]. rewrite !Forall_app. repeat split.
      + apply Forall_fmap, Forall_true. done.
      + apply Forall_replicate. done.
      + apply Forall_join, Forall_fmap, Forall_true. intros i. repeat constructor; done.
    - intros s1 s2 _ [k Hk] IH. by eapply pstep_acts.
  Qed.

  Lemma reach_all nseg progs s : reachp nseg progs s → sLog s ++ evsAll s ≡ₚ evsC (mjoin progs).
  Proof.
    intros H. unfold pipe_reach in H. apply (rtc_ind_r (λ s', sLog s' ++ evsAll s' ≡ₚ evsC (mjoin progs)) (pipeInit n nseg progs)) in H;
      [done| |].
    - cbn. unfold evsAll. cbn. change (evsN []) with (@nil event). rewrite app_nil_r, !fmap_app, !join_app.
      assert (H1 : mjoin (evsPr <$> (client <$> progs)) = evsC (mjoin progs)).
      { clear H. induction progs as [|pg progs IH]; [done|]. rewrite !fmap_cons, !mjoin_cons, evsC_app, IH. done. }
      assert (H2 : ∀ m, mjoin (evsPr <$> replicate m (worker CSeg)) = []).
      { induction m; [done|]. cbn. done. }
      assert (H3 : ∀ l, mjoin (evsPr <$> mjoin ((λ i, [worker (CIxAdd i); worker (CIxRem i); worker (CRkAdd i); worker (CRkRem i)]) <$> l)) = []).
      { induction l as [|i l IH]; [done|]. rewrite fmap_cons, mjoin_cons, fmap_app, join_app, IH. done. }
      by rewrite H1, H2, H3, !app_nil_r.
    - intros s1 s2 _ [k Hk] IH. by rewrite (pstep_all _ _ _ Hk).
  Qed.

  Lemma wt_calls pr cs : wt pr (evsC cs) = 0.
  Proof. unfold evsC. rewrite W_join. apply zsum_zero. intros c _. apply wt_call. Qed.

  Lemma proc_owed_wt pr p : goodA pr (pActs p) → wt pr (evsA (pActs p)) = proc_owed (pW pr) (pReq pr) (pFin pr) p.
  Proof.
    intros H. unfold proc_owed. destruct (not_counted (pReq pr) (pActs p)) eqn:E.
    - destruct (pActs p) as [|a l]; [done|]. by apply H.
    - rewrite W_evsA. apply zsum_ext. intros a Ha. apply not_counted_false in E.
      destruct a as [e|ch m| | | | |]; try done; [|apply wt_msg].
      destruct e as [c| |]; cbn; [|done..]. rewrite (decide_False (P:=c = pReq pr)); [lia|]. by intros ->.
  Qed.

  Lemma balance pr nseg progs s : reachp nseg progs s →
    pK pr * value (sLog s) (pReq pr) = value (sLog s) (pFin pr) + in_flight (pW pr) (pReq pr) (pFin pr) s.
  Proof.
    intros H. pose proof (reach_all _ _ _ H) as Hp. apply (W_perm (weight (pReq pr) (pFin pr) (pK pr))) in Hp.
    rewrite wt_calls, W_app, W_log in Hp. unfold evsAll in Hp. rewrite W_app, W_join in Hp.
    unfold evsN in Hp. rewrite W_join in Hp.
    pose proof (reach_acts _ _ _ _ (goodA_closed pr) H) as Hg. unfold in_flight.
    rewrite <- (zsum_ext (W (weight (pReq pr) (pFin pr) (pK pr)) ∘ evsPr) (proc_owed (pW pr) (pReq pr) (pFin pr))).
    2: { intros p Hin. cbn. unfold evsPr. rewrite W_app, wt_calls, Z.add_0_r. apply proc_owed_wt.
         rewrite Forall_forall in Hg. by apply Hg. }
    rewrite <- (zsum_ext (W (weight (pReq pr) (pFin pr) (pK pr)) ∘ (evsM ∘ snd)) (λ cm, pW pr cm.2)); [lia|].
    intros [ch m] _. apply wt_msg.
  Qed.
End Pipe.
