(** Under fair schedules every search returns. *)
From Verif Require Import ModelFlight SpecFlight ProofFlight ProofFlightSafe.

Lemma NoDup_mjoin_index {A B} (f : A → list B) l k k' p p' x : NoDup (mjoin (f <$> l)) →
  l !! k = Some p → l !! k' = Some p' → x ∈ f p → x ∈ f p' → k = k'.
Proof.
  revert k k'. induction l as [|y l IH]; intros k k' HN; [by rewrite lookup_nil|].
  change (NoDup (f y ++ mjoin (f <$> l))) in HN. apply NoDup_app in HN as (_ & HD & HN).
  assert (HJ : ∀ j q, l !! j = Some q → x ∈ f q → x ∈ mjoin (f <$> l)).
  { intros j q Hj Hx. apply elem_of_list_join. exists (f q). split; [done|]. apply elem_of_list_fmap_1. by eapply elem_of_list_lookup_2. }
  destruct k as [|k], k' as [|k']; cbn; intros Hk Hk' Hx Hx'.
  - done.
  - injection Hk as ->. destruct (HD x Hx). by eapply HJ.
  - injection Hk' as ->. destruct (HD x Hx'). by eapply HJ.
  - f_equal. by eapply IH.
Qed.
Lemma NoDup_mjoin_filter {A B} (f : A → list B) (P : A → Prop) `{∀ x, Decision (P x)} l :
  NoDup (mjoin (f <$> l)) → NoDup (mjoin (f <$> filter P l)) ∧ ∀ x, x ∈ mjoin (f <$> filter P l) → x ∈ mjoin (f <$> l).
Proof.
  induction l as [|y l IH]; [done|]. intros HN. change (NoDup (f y ++ mjoin (f <$> l))) in HN.
  apply NoDup_app in HN as (H1 & HD & HN). destruct (IH HN) as [IH1 IH2].
  rewrite filter_cons. destruct (decide (P y)).
  - change (mjoin (f <$> y :: filter P l)) with (f y ++ mjoin (f <$> filter P l)).
    change (mjoin (f <$> y :: l)) with (f y ++ mjoin (f <$> l)). split.
    + apply NoDup_app. split; [done|]. split; [|done]. intros x Hx Hx'. by apply (HD x Hx), IH2.
    + intros x. rewrite !elem_of_app. intros [?|?]; auto.
  - split; [done|]. intros x Hx. change (mjoin (f <$> y :: l)) with (f y ++ mjoin (f <$> l)). apply elem_of_app. auto.
Qed.
Lemma bounded_length (n : nat) l : NoDup l → (∀ i, i ∈ l → (i < n)%nat) → (length l <= n)%nat.
Proof.
  intros HN Hl. rewrite <- (seq_length n 0). apply submseteq_length, NoDup_submseteq; [done|].
  intros i Hi. apply elem_of_seq. specialize (Hl i Hi). lia.
Qed.
(** The sum of [f] over a list *)
Fixpoint total {A} (f : A → nat) (l : list A) : nat := match l with [] => 0%nat | x :: l' => (f x + total f l')%nat end.
Lemma sum_insert {A} (f : A → nat) (l : list A) k p p' : l !! k = Some p →
  (total f (<[k := p']> l) + f p = total f l + f p')%nat.
Proof.
  revert k. induction l as [|y l IH]; intros [|k] H; try done.
  - injection H as ->. cbn. lia.
  - specialize (IH k H). change (<[S k := p']> (y :: l)) with (y :: <[k := p']> l). cbn [total]. lia.
Qed.

Section Live.
  Context (log2 : F → F) (sortBy : (ScoredDoc → ScoredDoc → bool) → list ScoredDoc → list ScoredDoc).
  Context (n : nat) (cap : schan → nat).
  Context (Hcap : ∀ ch, (0 < cap ch)%nat).
  Notation fstep := (fstep log2 sortBy n cap).
  Notation fproc := (fproc log2 sortBy n cap).
  Notation mv := (mv log2 sortBy n).

  (** * Room for replies *)
  Lemma room_reply programs roles s k p c i : finv n programs roles s → fProcs s !! k = Some p → ptoks n p = [(c, i)] →
    room n cap (KReply c) (fNet s) = true.
  Proof.
    intros HI Hk Hp. unfold room. apply bool_decide_eq_true_2.
    pose proof (fi_toks _ _ _ _ HI) as HT. pose proof (allToks_NoDup n (length (fReqs s))) as HN. rewrite <- HT in HN.
    assert (Hin : ∀ x, x ∈ toks n s → (x.2 < n)%nat). { intros [c' i'] Hx. rewrite HT in Hx. by apply allToks_in in Hx as [_ ?]. }
    unfold toks in HN, Hin. apply NoDup_app in HN as (_ & HD & HN). apply NoDup_app in HN as (HN & _ & _).
    set (R := filter (λ p, p.1 = KReply c) (fNet s)).
    destruct (NoDup_mjoin_filter mtoks (λ p, p.1 = KReply c) (fNet s) HN) as [HR1 HR2]. fold R in HR1, HR2.
    assert (HG : Forall (λ x, ∃ j, mtoks x = [(c, j)]) R).
    { apply Forall_forall. intros [ch m] Hx. unfold R in Hx. apply elem_of_list_filter in Hx as [Hc Hx]. cbn in Hc. subst ch.
      pose proof (fi_msgs _ _ _ _ HI) as HM. rewrite Forall_forall in HM. specialize (HM _ Hx). destruct m; cbn in HM; try done. by eexists. }
    assert (Hc : ∀ x, x ∈ mjoin (mtoks <$> R) → x.1 = c).
    { intros x Hx. apply elem_of_list_join in Hx as (l & Hx & (y & -> & Hy)%elem_of_list_fmap).
      rewrite Forall_forall in HG. destruct (HG y Hy) as [j Hj]. rewrite Hj in Hx. by apply elem_of_list_singleton in Hx as ->. }
    assert (Hl : length (mjoin (mtoks <$> R)) = length R).
    { clear -HG. induction HG as [|x R [j Hj] _ IH]; [done|]. change (mjoin (mtoks <$> x :: R)) with (mtoks x ++ mjoin (mtoks <$> R)).
      rewrite Hj. cbn. by rewrite <- IH. }
    assert (HpT : (c, i) ∈ mjoin (ptoks n <$> fProcs s)).
    { apply elem_of_list_join. exists (ptoks n p). split; [rewrite Hp; by left|]. apply elem_of_list_fmap_1. by eapply elem_of_list_lookup_2. }
    assert (HB : (length (i :: (mjoin (mtoks <$> R)).*2) <= n)%nat).
    { apply bounded_length.
      - apply NoDup_cons. split.
        + intros ([c' i'] & -> & Hx)%elem_of_list_fmap. pose proof (Hc _ Hx) as E. cbn in E. subst c'.
          apply (HD (c, i')); [done|]. apply elem_of_app. left. by apply HR2.
        + apply NoDup_fmap_2_strong; [|done]. intros [c1 i1] [c2 i2] H1%Hc H2%Hc E. cbn in *. congruence.
      - intros j [->|Hj]%elem_of_cons.
        + apply (Hin (c, i)). apply elem_of_app. by left.
        + apply elem_of_list_fmap in Hj as (x & -> & Hx). apply Hin. rewrite !elem_of_app. right. left. by apply HR2. }
    cbn in HB. rewrite fmap_length, Hl in HB. lia.
  Qed.

  (** * Somebody can move *)
  Definition ready (k : nat) (s : fstate) : Prop := ∃ p, fProcs s !! k = Some p ∧ ∀ late, is_Some (fproc late p s).
  Definition clientDone (p : spc) : Prop :=
    match p with PIdle todo => todo = [] | PSend _ _ _ _ | PGather _ _ _ _ => False | _ => True end.
  Definition staffed (roles : list role) : Prop := ∀ i, (i < n)%nat → RLook i ∈ roles ∧ RRank i ∈ roles.

  Lemma not_exists {A} (f : A → bool) l : ¬ Exists (λ x, f x = true) l → ∀ x, x ∈ l → f x = false.
  Proof.
    intros H x Hx. destruct (f x) eqn:E; [|done]. destruct H. apply Exists_exists. eauto.
  Qed.
  Lemma exists_lookup {A} (f : A → bool) l : Exists (λ x, f x = true) l → ∃ k x, l !! k = Some x ∧ f x = true.
  Proof. intros (x & Hx & E)%Exists_exists. apply elem_of_list_lookup in Hx as [k Hk]. eauto. Qed.
  Lemma role_lookup roles s r : roleOf <$> fProcs s = roles → r ∈ roles → ∃ k p, fProcs s !! k = Some p ∧ roleOf p = r.
  Proof.
    intros <- H. apply elem_of_list_fmap in H as (p & -> & Hp). apply elem_of_list_lookup in Hp as [k Hk]. eauto.
  Qed.
  Lemma room_none ch net : (∀ x, x ∈ net → bool_decide (x.1 = ch) = false) → (∀ c, ch ≠ KReply c) → room n cap ch net = true.
  Proof.
    intros H Hc. unfold room. apply bool_decide_eq_true_2.
    assert (E : filter (λ p, p.1 = ch) net = []).
    { destruct (filter _ net) as [|x l] eqn:E; [done|]. assert (Hx : x ∈ filter (λ p, p.1 = ch) net) by (rewrite E; by left).
      apply elem_of_list_filter in Hx as [Hx Hi]. specialize (H x Hi). by apply bool_decide_eq_false in H. }
    rewrite E. destruct ch as [i|i|c]; cbn; [apply Hcap|apply Hcap|]. by destruct (Hc c).
  Qed.

  Definition busy (p : spc) : bool :=
    match p with WLookGot _ _ _ | WLookReply _ _ _ | WRankScan _ _ _ _ _ | WRankReply _ _ _ => true | _ => false end.
  Definition hasDocs (p : spc) : bool := match p with WLookDocs _ _ _ _ => true | _ => false end.
  Definition onRank (x : schan * smsg) : bool := match x.1 with KRank _ => true | _ => false end.
  Definition onLook (x : schan * smsg) : bool := match x.1 with KLook _ => true | _ => false end.
  Definition starts (p : spc) : bool :=
    match p with PIdle (_ :: _) => true | PSend _ _ _ _ => true | PGather _ _ got _ => bool_decide (n <= length got)%nat | _ => false end.

  Lemma someone_ready programs roles s : finv n programs roles s → staffed roles →
    Forall clientDone (fProcs s) ∨ ∃ k, ready k s.
  Proof.
    intros HI HS. pose proof (fi_roles _ _ _ _ HI) as HR. pose proof (fi_msgs _ _ _ _ HI) as HM. rewrite Forall_forall in HM.
    pose proof (fi_procs _ _ _ _ HI) as HP. rewrite Forall_forall in HP.
    destruct (decide (Exists (λ p, busy p = true) (fProcs s))) as [H|H1].
    { right. apply exists_lookup in H as (k & p & Hk & Hp). exists k, p. split; [done|]. intros late.
      assert (HRoom : ∀ i c rp, p = WLookReply i c rp ∨ p = WRankReply i c rp → room n cap (KReply c) (fNet s) = true).
      { intros i c rp E. eapply room_reply; [done|done|]. by destruct E as [->| ->]. }
      destruct p; cbn in Hp |- *; try done.
      - destruct (nowAt _ _); [|done]. by destruct (Lookup _ _ _ _ _ _ _) as [[]|].
      - rewrite (HRoom i c rp) by auto. done.
      - destruct rest as [|d rest]; [by destruct (rankPage _ _ _)|by destruct (nowAt _ _)].
      - rewrite (HRoom i c rp) by auto. done. }
    pose proof (not_exists _ _ H1) as H1'. clear H1.
    destruct (decide (Exists (λ x, onRank x = true) (fNet s))) as [H|H2].
    { right. apply exists_lookup in H as (j & [ch m] & Hj & Hx). apply elem_of_list_lookup_2 in Hj.
      destruct ch as [|i|]; try done. pose proof (HM _ Hj) as Hg. destruct m as [|c req docs|]; cbn in Hg; try done.
      destruct (role_lookup _ s (RRank i) HR) as (k & p & Hk & Hp); [by apply HS|].
      assert (Hb := H1' p ltac:(by eapply elem_of_list_lookup_2)).
      exists k, p. split; [done|]. intros late. destruct p; cbn in Hp, Hb; try done. injection Hp as ->. cbn.
      destruct (firstOf_in _ _ _ Hj) as (m' & net' & Ef). rewrite Ef. apply firstOf_split in Ef as (a & b & Ea & _).
      specialize (HM (KRank i, m') ltac:(rewrite Ea; apply elem_of_app; right; by left)). destruct m'; cbn in HM; done. }
    pose proof (not_exists _ _ H2) as H2'. clear H2.
    destruct (decide (Exists (λ p, hasDocs p = true) (fProcs s))) as [H|H3].
    { right. apply exists_lookup in H as (k & p & Hk & Hp). exists k, p. split; [done|]. intros late. destruct p; try done. cbn.
      rewrite (room_none (KRank i)); [done| |done]. intros x Hx. specialize (H2' x Hx). apply bool_decide_eq_false_2. intros E.
      unfold onRank in H2'. by rewrite E in H2'. }
    pose proof (not_exists _ _ H3) as H3'. clear H3.
    destruct (decide (Exists (λ x, onLook x = true) (fNet s))) as [H|H4].
    { right. apply exists_lookup in H as (j & [ch m] & Hj & Hx). apply elem_of_list_lookup_2 in Hj.
      destruct ch as [i| |]; try done. pose proof (HM _ Hj) as Hg. destruct m as [c req| |]; cbn in Hg; try done.
      destruct (role_lookup _ s (RLook i) HR) as (k & p & Hk & Hp); [by apply HS|].
      assert (Hin : p ∈ fProcs s) by by eapply elem_of_list_lookup_2.
      assert (Hb := H1' p Hin). assert (Hd := H3' p Hin).
      exists k, p. split; [done|]. intros late. destruct p; cbn in Hp, Hb, Hd; try done. injection Hp as ->. cbn.
      destruct (firstOf_in _ _ _ Hj) as (m' & net' & Ef). rewrite Ef. apply firstOf_split in Ef as (a & b & Ea & _).
      specialize (HM (KLook i, m') ltac:(rewrite Ea; apply elem_of_app; right; by left)). destruct m'; cbn in HM; done. }
    pose proof (not_exists _ _ H4) as H4'. clear H4.
    destruct (decide (Exists (λ p, starts p = true) (fProcs s))) as [H|H5].
    { right. apply exists_lookup in H as (k & p & Hk & Hp). exists k, p. split; [done|]. intros late.
      destruct p as [[|req todo]|c req i todo|c req got todo|i|i c req|i c rp|i c req docs|i|i c req rest acc|i c rp]; try done; cbn.
      - destruct (decide (i < n)%nat); [|done]. rewrite (room_none (KLook i)); [done| |done]. intros x Hx. specialize (H4' x Hx).
        apply bool_decide_eq_false_2. intros E. unfold onLook in H4'. by rewrite E in H4'.
      - cbn in Hp. apply bool_decide_eq_true in Hp. rewrite decide_False by lia. by destruct (Ranks _ _ _). }
    pose proof (not_exists _ _ H5) as H5'. clear H5.
    (** What is left are clients waiting for replies *)
    destruct (decide (Exists (λ p, (match p with PGather _ _ _ _ => true | _ => false end) = true) (fProcs s))) as [H|H6].
    2:{ left. apply Forall_forall. intros p Hp. pose proof (not_exists _ _ H6 p Hp) as E6. specialize (H5' p Hp).
        destruct p as [[|]| | | | | | | | |]; done. }
    right. apply exists_lookup in H as (k & p & Hk & Hp). destruct p as [| |c req got todo| | | | | | |]; try done. clear Hp.
    assert (Hin : PGather c req got todo ∈ fProcs s) by by eapply elem_of_list_lookup_2.
    assert (Hl : (length got < n)%nat). { specialize (H5' _ Hin). cbn in H5'. apply bool_decide_eq_false in H5'. lia. }
    assert (∃ i, (i < n)%nat ∧ i ∉ heardOf got) as (i & Hi & Hni).
    { destruct (decide (Exists (λ i, i ∉ heardOf got) (seq 0 n))) as [(i & Hi & Hn)%Exists_exists|Hn].
      - exists i. apply elem_of_seq in Hi. split; [lia|done].
      - exfalso. assert (HF : ∀ i, i ∈ seq 0 n → i ∈ heardOf got).
        { intros i Hi. destruct (decide (i ∈ heardOf got)); [done|]. destruct Hn. apply Exists_exists. eauto. }
        assert (Hle : (length (seq 0 n) <= length (heardOf got))%nat) by (apply submseteq_length, NoDup_submseteq; [apply NoDup_seq|done]).
        rewrite seq_length in Hle. assert (length (heardOf got) <= length got)%nat; [|lia].
        clear. unfold heardOf. induction got as [|[[? ?]|] got IH]; cbn in *; lia. }
    pose proof (fi_owners _ _ _ _ HI) as HO. pose proof (fi_toks _ _ _ _ HI) as HT.
    assert (HON : NoDup (owners s)). { rewrite HO. apply NoDup_seq. }
    assert (Hc : (c < length (fReqs s))%nat).
    { assert (Hx : c ∈ owners s). { unfold owners. apply elem_of_app. left. apply elem_of_list_join. exists [c]. split; [by left|].
        change [c] with (owner (PGather c req got todo)). by apply elem_of_list_fmap_1. }
      rewrite HO in Hx. apply elem_of_seq in Hx. lia. }
    assert (Ht : (c, i) ∈ toks n s). { rewrite HT. by apply allToks_in. }
    unfold owners in HON. apply NoDup_app in HON as (HON1 & HON2 & _).
    assert (Hown : c ∈ mjoin (owner <$> fProcs s)).
    { apply elem_of_list_join. exists [c]. split; [by left|]. change [c] with (owner (PGather c req got todo)). by apply elem_of_list_fmap_1. }
    unfold toks in Ht. rewrite !elem_of_app in Ht. destruct Ht as [Ht|[Ht|Ht]].
    - exfalso. apply elem_of_list_join in Ht as (l & Ht & (p2 & -> & Hp2)%elem_of_list_fmap).
      pose proof (H1' p2 Hp2) as E1. pose proof (H3' p2 Hp2) as E3. pose proof (H5' p2 Hp2) as E5.
      apply elem_of_list_lookup in Hp2 as [k2 Hk2].
      destruct p2 as [[|req2 todo2]|c2 req2 i2 todo2|c2 req2 got2 todo2|i2|i2 c2 req2|i2 c2 rp2|i2 c2 req2 docs2|i2|i2 c2 req2 rest2 acc2|i2 c2 rp2];
        cbn in E1, E3, E5; try done; cbn in Ht; try by apply elem_of_nil in Ht.
      rewrite gtoks_heardOf in Ht. apply elem_of_list_fmap in Ht as (j & [= <- <-] & Hj).
      assert (k = k2) as <-. { apply (NoDup_mjoin_index owner (fProcs s) k k2 _ _ c HON1 Hk Hk2); by left. }
      rewrite Hk in Hk2. injection Hk2 as <- <- <-. done.
    - exists k, (PGather c req got todo). split; [done|]. intros late. cbn. rewrite decide_True by done.
      destruct (late && _); [done|].
      apply elem_of_list_join in Ht as (l & Ht & ([ch m] & -> & Hx)%elem_of_list_fmap).
      pose proof (H2' _ Hx) as E2. pose proof (H4' _ Hx) as E4. pose proof (HM _ Hx) as Hg.
      destruct ch as [|?|c2]; try done. destruct m as [| |j rp]; cbn in Hg; try done. cbn in Ht.
      apply elem_of_list_singleton in Ht as [= <- <-]. destruct (firstOf_in _ _ _ Hx) as (m' & net' & Ef). rewrite Ef.
      apply firstOf_split in Ef as (a & b & Ea & _).
      specialize (HM (KReply c, m') ltac:(rewrite Ea; apply elem_of_app; right; by left)). destruct m'; cbn in HM; done.
    - exfalso. apply elem_of_list_join in Ht as (l & Ht & (a & -> & Ha)%elem_of_list_fmap).
      unfold atoks in Ht. rewrite gtoks_heardOf in Ht. apply elem_of_list_fmap in Ht as (j & [= E _] & _).
      apply (HON2 c Hown). rewrite E. by apply elem_of_list_fmap_1.
  Qed.

  (** * Every step gets closer to the end *)
  Definition K : nat := (9 * n + 3)%nat.
  Definition pcost (p : spc) : nat :=
    match p with
    | PIdle todo => (K * length todo)%nat
    | PSend _ _ i todo => (8 * (n - i) + n + 2 + K * length todo)%nat
    | PGather _ _ got todo => (n - length got + 1 + K * length todo)%nat
    | WLook _ | WRank _ => 0%nat
    | WLookGot _ _ _ => 6%nat
    | WLookDocs _ _ _ _ => 5%nat
    | WRankScan _ _ _ _ _ => 3%nat
    | WLookReply _ _ _ | WRankReply _ _ _ => 2%nat
    end.
  Definition mcost (x : schan * smsg) : nat := match x.2 with MLook _ _ => 7%nat | MDocs _ _ _ => 4%nat | MReply _ _ => 1%nat end.
  Definition cost (s : fstate) : nat := (total pcost (fProcs s) + total mcost (fNet s))%nat.
  Definition pdocs (p : spc) : nat := match p with WRankScan _ _ _ rest _ => length rest | _ => 0%nat end.
  Definition docsLeft (s : fstate) : nat := total pdocs (fProcs s).

  Lemma mcost_app a b : total mcost (a ++ b) = (total mcost (a) + total mcost (b))%nat.
  Proof. induction a as [|x a IH]; [done|]. cbn. rewrite <- Nat.add_assoc. f_equal. exact IH. Qed.
  Lemma mv_cost s p p' net reqs ans : goodProc n p → mv s p (SStep p' net reqs ans) →
    (pcost p' + total mcost (net) < pcost p + total mcost (fNet s))%nat ∨
    ((pcost p' + total mcost (net) = pcost p + total mcost (fNet s))%nat ∧ (pdocs p' < pdocs p)%nat).
  Proof.
    intros Hg H. destruct s as [ps nt rs ws an cr]. inversion H; subst; clear H; cbn [fNet fReqs fWorlds fAnswers] in *; subst;
      rewrite ?mcost_app; cbn [fmap list_fmap total mcost pcost pdocs fst snd length] in *; cbn in Hg; unfold K;
      rewrite ?app_length; cbn [length].
    all: try (left; cbn; lia).
    - left. unfold afterLookup. destruct (rqCountOnly req), (zlen docs =? 0), (rqOrderless req); cbn; lia.
    - right. lia.
  Qed.

  Lemma step_cost programs roles k late s s' : finv n programs roles s → fstep (LProc k late) s = Some s' →
    fCrash s' = true ∨ (cost s' < cost s)%nat ∨ (cost s' = cost s ∧ docsLeft s' < docsLeft s)%nat.
  Proof.
    intros HI. unfold ModelFlight.fstep. destruct (fCrash s); [done|]. destruct (fProcs s !! k) as [p|] eqn:Ek; [|done]. cbn.
    destruct (fproc late p s) as [r|] eqn:Er; [|done]. cbn. intros [= <-]. destruct r as [p' net reqs ans|]; [|by left]. right.
    apply fproc_mv in Er.
    assert (Hp : goodProc n p). { pose proof (fi_procs _ _ _ _ HI) as HP. rewrite Forall_lookup in HP. by apply (HP k). }
    pose proof (sum_insert pcost _ _ _ p' Ek). pose proof (sum_insert pdocs _ _ _ p' Ek).
    unfold cost, docsLeft. cbn [fProcs fNet]. destruct (mv_cost _ _ _ _ _ _ Hp Er) as [?|[? ?]]; lia.
  Qed.

  (** * Turns *)
  Definition still (s s' : fstate) : Prop :=
    fProcs s' = fProcs s ∧ fNet s' = fNet s ∧ fCrash s' = fCrash s.
  Lemma ready_still k s s' : still s s' → ready k s → ready k s'.
  Proof.
    intros (E1 & E2 & E3) (p & Hk & Hp). exists p. rewrite E1. split; [done|]. intros late. specialize (Hp late).
    destruct p as [[|req todo]|c req i todo|c req got todo|i|i c req|i c rp|i c req docs|i|i c req [|d rest] acc|i c rp]; cbn in *;
      rewrite ?E2; try done.
    - destruct (decide _); [|done]. by destruct (room _ _ _ _).
    - destruct (decide _); [|by destruct (Ranks _ _ _)]. destruct (late && _); [done|]. by destruct (firstOf _ _) as [[[] ?]|].
    - by destruct (firstOf _ _) as [[[] ?]|].
    - destruct (nowAt (fWorlds s') i); [|done]. by destruct (Lookup _ _ _ _ _ _ _) as [[]|].
    - by destruct (room _ _ _ _).
    - by destruct (room _ _ _ _).
    - by destruct (firstOf _ _) as [[[] ?]|].
    - by destruct (rankPage _ _ _).
    - by destruct (nowAt (fWorlds s') i).
    - by destruct (room _ _ _ _).
  Qed.
  Lemma turn_cases programs roles l s : finv n programs roles s →
    finv n programs roles (fturn fstep l s) ∧
    (still s (fturn fstep l s) ∨ fCrash (fturn fstep l s) = true ∨ (cost (fturn fstep l s) < cost s)%nat ∨
     (cost (fturn fstep l s) = cost s ∧ docsLeft (fturn fstep l s) < docsLeft s)%nat) ∧
    (∀ k late, l = LProc k late → ready k s → fCrash s = false →
       fCrash (fturn fstep l s) = true ∨ (cost (fturn fstep l s) < cost s)%nat ∨
       (cost (fturn fstep l s) = cost s ∧ docsLeft (fturn fstep l s) < docsLeft s)%nat).
  Proof.
    intros HI. unfold fturn. destruct (fstep l s) as [s'|] eqn:E.
    - split; [by eapply finv_step|]. destruct l as [k late|i sh].
      + pose proof (step_cost _ _ _ _ _ _ HI E) as H. split; [by right|]. intros; done.
      + split; [|done]. left. unfold ModelFlight.fstep in E. destruct (fCrash s) eqn:Ec; [done|]. destruct (last _); [|done]. cbn in E. by injection E as <-.
    - split; [done|]. split; [by left|]. intros k late -> (p & Hk & Hp) Hc. unfold ModelFlight.fstep in E.
      rewrite Hc, Hk in E. cbn in E. destruct (Hp late) as [r Hr]. rewrite Hr in E. done.
  Qed.

  Definition over (s : fstate) : Prop := fCrash s = true ∨ Forall clientDone (fProcs s).
  Lemma fafter_inv programs roles ls s i : finv n programs roles s → finv n programs roles (fafter fstep ls s i).
  Proof. intros HI. induction i as [|i IH]; [done|]. cbn. by apply (turn_cases programs roles). Qed.

  Lemma next_move programs roles ls s k t : finv n programs roles s → ready k (fafter fstep ls s t) → fCrash (fafter fstep ls s t) = false →
    ∀ d late, ls (t + d)%nat = LProc k late →
    ∃ t', (t < t')%nat ∧ (fCrash (fafter fstep ls s t') = true ∨ (cost (fafter fstep ls s t') < cost (fafter fstep ls s t))%nat ∨
      (cost (fafter fstep ls s t') = cost (fafter fstep ls s t) ∧ docsLeft (fafter fstep ls s t') < docsLeft (fafter fstep ls s t))%nat).
  Proof.
    intros HI Hk Hc d late Hd.
    assert (HS : ∀ e, (e <= d)%nat → still (fafter fstep ls s t) (fafter fstep ls s (t + e)) ∨
      ∃ t', (t < t')%nat ∧ (fCrash (fafter fstep ls s t') = true ∨ (cost (fafter fstep ls s t') < cost (fafter fstep ls s t))%nat ∨
      (cost (fafter fstep ls s t') = cost (fafter fstep ls s t) ∧ docsLeft (fafter fstep ls s t') < docsLeft (fafter fstep ls s t))%nat)).
    { induction e as [|e IH]; intros He.
      - left. rewrite Nat.add_0_r. done.
      - destruct (IH ltac:(lia)) as [Hs|Ht]; [|by right]. rewrite Nat.add_succ_r. cbn.
        destruct (turn_cases programs roles (ls (t + e)%nat) _ (fafter_inv _ _ ls s (t + e) HI)) as (_ & [H|H] & _).
        + left. destruct Hs as (? & ? & ?), H as (? & ? & ?). repeat split; congruence.
        + right. exists (S (t + e)). split; [lia|]. cbn. destruct Hs as (E1 & E2 & E3). unfold cost, docsLeft in *.
          rewrite E1, E2 in H. exact H. }
    destruct (HS d ltac:(lia)) as [Hs|Ht]; [|done]. exists (S (t + d)). split; [lia|]. cbn.
    destruct (turn_cases programs roles (ls (t + d)%nat) _ (fafter_inv _ _ ls s (t + d) HI)) as (_ & _ & H).
    specialize (H k late Hd (ready_still _ _ _ Hs Hk)). destruct Hs as (E1 & E2 & E3). unfold cost, docsLeft in *.
    rewrite E1, E2, E3 in H. by apply H.
  Qed.

  Lemma ends programs roles ls s : finv n programs roles s → staffed roles → ffair (length (fProcs s)) ls →
    ∃ t, over (fafter fstep ls s t).
  Proof.
    intros HI HS Hf.
    assert (HL : ∀ t, length (fProcs (fafter fstep ls s t)) = length (fProcs s)).
    { intros t. rewrite <- (fmap_length roleOf (fProcs s)), <- (fmap_length roleOf).
      rewrite (fi_roles _ _ _ _ HI), (fi_roles _ _ _ _ (fafter_inv _ _ ls s t HI)). done. }
    cut (∀ a b t, cost (fafter fstep ls s t) = a → docsLeft (fafter fstep ls s t) = b → ∃ t', over (fafter fstep ls s t')).
    { intros H. by eapply (H _ _ 0%nat). }
    intros a. induction (lt_wf a) as [a _ IHa]. intros b. induction (lt_wf b) as [b _ IHb]. intros t Ea Eb.
    destruct (fCrash (fafter fstep ls s t)) eqn:Ec; [exists t; by left|].
    destruct (someone_ready _ _ _ (fafter_inv _ _ ls s t HI) HS) as [Hd|[k Hk]]; [exists t; by right|].
    assert (Hkl : (k < length (fProcs s))%nat). { rewrite <- (HL t). destruct Hk as (p & Hk & _). by eapply lookup_lt_Some. }
    destruct (Hf k Hkl t) as (j & late & Hj & Hl). replace j with (t + (j - t))%nat in Hl by lia.
    destruct (next_move _ _ ls s k t HI Hk Ec _ _ Hl) as (t' & _ & [H|[H|[H1 H2]]]).
    - exists t'. by left.
    - by eapply (IHa (cost (fafter fstep ls s t')) ltac:(lia) _ t').
    - apply (IHb (docsLeft (fafter fstep ls s t')) ltac:(lia) t'); [lia|done].
  Qed.

  (** * Once over, it stays so *)
  Lemma over_turn l s : over s → over (fturn fstep l s).
  Proof.
    intros [Hc|Hd]; unfold fturn.
    - left. unfold ModelFlight.fstep. by rewrite Hc.
    - destruct (fstep l s) as [s'|] eqn:E; [|by right]. unfold ModelFlight.fstep in E. destruct (fCrash s); [done|].
      destruct l as [k late|i sh].
      2:{ destruct (last _); [|done]. cbn in E. injection E as <-. by right. }
      destruct (fProcs s !! k) as [p|] eqn:Ek; [|done]. cbn in E. destruct (fproc late p s) as [r|] eqn:Er; [|done]. cbn in E.
      injection E as <-. destruct r as [p' net reqs ans|]; [|by left]. right. cbn. apply Forall_insert; [done|].
      assert (Hp : clientDone p). { rewrite Forall_lookup in Hd. by apply (Hd k). }
      apply fproc_mv in Er. inversion Er; subst; cbn in Hp |- *; try done.
      unfold afterLookup. destruct (rqCountOnly req), (zlen docs =? 0), (rqOrderless req); done.
  Qed.
  Lemma over_after ls s t d : over (fafter fstep ls s t) → over (fafter fstep ls s (t + d)).
  Proof. intros H. induction d as [|d IH]; [by rewrite Nat.add_0_r|]. rewrite Nat.add_succ_r. cbn. by apply over_turn. Qed.
  Lemma done_answered programs roles s : finv n programs roles s → Forall clientDone (fProcs s) → all_answered programs s.
  Proof.
    intros HI HD. pose proof (fi_owners _ _ _ _ HI) as HO. pose proof (fi_todos _ _ _ _ HI) as HT.
    rewrite Forall_forall in HD. split; [|split].
    - intros p Hp. specialize (HD p Hp). by destruct p.
    - rewrite mjoin_nil in HT; [done|]. intros p Hp. specialize (HD p Hp). by destruct p.
    - unfold owners in HO. rewrite mjoin_nil in HO; [done|]. intros p Hp. specialize (HD p Hp). by destruct p.
  Qed.

  Lemma staffed_init programs tl tr : (0 < tl)%nat → (0 < tr)%nat → staffed (roleOf <$> fProcs (fInit n programs tl tr [])).
  Proof.
    intros Hl Hr i Hi. cbn. rewrite fmap_app, !elem_of_app.
    assert (HJ : ∀ p, p ∈ replicate tl (WLook i) ++ replicate tr (WRank i) →
      roleOf p ∈ roleOf <$> mjoin ((λ i, replicate tl (WLook i) ++ replicate tr (WRank i)) <$> seq 0 n)).
    { intros p Hp. apply elem_of_list_fmap_1, elem_of_list_join. eexists. split; [exact Hp|].
      apply elem_of_list_fmap. exists i. split; [done|]. apply elem_of_seq. lia. }
    split; right.
    - apply (HJ (WLook i)). apply elem_of_app. left. apply elem_of_replicate. split; [done|lia].
    - apply (HJ (WRank i)). apply elem_of_app. right. apply elem_of_replicate. split; [done|lia].
  Qed.

  Theorem returns_lem programs tl tr shards ls : (0 < tl)%nat → (0 < tr)%nat →
    ffair (length (fProcs (fInit n programs tl tr shards))) ls →
    ∃ i, ∀ j, (i <= j)%nat → let s := fafter fstep ls (fInit n programs tl tr shards) j in
      fCrash s = true ∨ all_answered programs s.
  Proof.
    intros Hl Hr Hf. pose proof (finv_init n programs tl tr shards) as HI.
    destruct (ends _ _ _ _ HI (staffed_init programs tl tr Hl Hr) Hf) as [t Ht]. exists t. intros j Hj. cbn zeta.
    replace j with (t + (j - t))%nat by lia. destruct (over_after _ _ _ (j - t) Ht) as [H|H]; [by left|right].
    eapply done_answered; [|done]. by apply fafter_inv.
  Qed.
End Live.
