(** Invariants of concurrent searches. *)
From Verif Require Import ModelFlight SpecFlight.

(** * Lists *)
Lemma firstOf_split ch net m net' : firstOf ch net = Some (m, net') →
  ∃ a b, net = a ++ (ch, m) :: b ∧ net' = a ++ b.
Proof.
  revert net'. induction net as [|[c m0] net IH]; intros net' H; [done|]. cbn in H.
  destruct (decide (c = ch)) as [->|].
  - injection H as -> ->. by exists [], net'.
  - destruct (firstOf ch net) as [[m' rest]|]; [|done]. cbn in H. injection H as -> <-.
    destruct (IH rest eq_refl) as (a & b & -> & ->). by exists ((c, m0) :: a), b.
Qed.
Lemma firstOf_in ch m net : (ch, m) ∈ net → ∃ m' net', firstOf ch net = Some (m', net').
Proof.
  induction net as [|[c m0] net IH]; [by intros []%elem_of_nil|]. cbn.
  destruct (decide (c = ch)) as [->|Hc]; [by eauto|]. intros [[= -> ->]|H]%elem_of_cons; [done|].
  destruct (IH H) as (m' & net' & ->). by exists m', ((c, m0) :: net').
Qed.
Lemma mjoin_insert {A B} (f : A → list B) (l : list A) k p p' : l !! k = Some p →
  mjoin (f <$> <[k := p']> l) ++ f p ≡ₚ mjoin (f <$> l) ++ f p'.
Proof.
  revert k. induction l as [|x l IH]; intros [|k] H; try done; cbn in *.
  - injection H as ->. rewrite <- !(assoc_L (++)).
    rewrite (Permutation_app_comm (mjoin (f <$> l)) (f p)), (Permutation_app_comm (mjoin (f <$> l)) (f p')).
    rewrite !(assoc_L (++)). apply Permutation_app_tail, Permutation_app_comm.
  - rewrite <- !(assoc_L (++)). by rewrite (IH k H).
Qed.

Section Inv.
  Context (log2 : F → F) (sortBy : (ScoredDoc → ScoredDoc → bool) → list ScoredDoc → list ScoredDoc).
  Context (n : nat) (cap : schan → nat).
  Notation fstep := (fstep log2 sortBy n cap).
  Notation fproc := (fproc log2 sortBy n cap).

  (** * Steps of goroutines as a relation *)
  Inductive mv (s : fstate) : spc → sres → Prop :=
    | mv_call req todo : mv s (PIdle (req :: todo))
        (SStep (PSend (length (fReqs s)) req 0 todo) (fNet s) (fReqs s ++ [(req, moment (fWorlds s))]) (fAnswers s))
    | mv_send c req i todo : (i < n)%nat → mv s (PSend c req i todo)
        (SStep (PSend c req (S i) todo) (fNet s ++ [(KLook i, MLook c req)]) (fReqs s) (fAnswers s))
    | mv_sent c req i todo : (n <= i)%nat → mv s (PSend c req i todo)
        (SStep (PGather c req [] todo) (fNet s) (fReqs s) (fAnswers s))
    | mv_late c req got todo : (length got < n)%nat → 0 < rqTimeout req → mv s (PGather c req got todo)
        (SStep (PGather c req (got ++ [None]) todo) (fNet s) (fReqs s) (fAnswers s))
    | mv_recv c req got todo i rp a b : (length got < n)%nat → fNet s = a ++ (KReply c, MReply i rp) :: b →
        mv s (PGather c req got todo) (SStep (PGather c req (got ++ [Some (i, rp)]) todo) (a ++ b) (fReqs s) (fAnswers s))
    | mv_done c req got todo resp : (n <= length got)%nat → Ranks sortBy req (heard got) = Some resp →
        mv s (PGather c req got todo)
          (SStep (PIdle todo) (fNet s) (fReqs s) (fAnswers s ++ [mkFAns c got resp (moment (fWorlds s))]))
    | mv_done_crash c req got todo : (n <= length got)%nat → Ranks sortBy req (heard got) = None →
        mv s (PGather c req got todo) SCrash
    | mv_look i c req a b : fNet s = a ++ (KLook i, MLook c req) :: b →
        mv s (WLook i) (SStep (WLookGot i c req) (a ++ b) (fReqs s) (fAnswers s))
    | mv_lookup i c req sh docs num : nowAt (fWorlds s) i = Some sh →
        Lookup log2 (shIx sh) (rqTokens req) (rqLabels req) (rqDocIds req)
          (rqCountOnly req) (Some (rqLogic req)) = Some (docs, num) →
        mv s (WLookGot i c req) (SStep (afterLookup i c req docs num) (fNet s) (fReqs s) (fAnswers s))
    | mv_lookup_crash i c req : (∀ sh, nowAt (fWorlds s) i = Some sh →
        Lookup log2 (shIx sh) (rqTokens req) (rqLabels req) (rqDocIds req)
          (rqCountOnly req) (Some (rqLogic req)) = None) → mv s (WLookGot i c req) SCrash
    | mv_reply i c rp : mv s (WLookReply i c rp)
        (SStep (WLook i) (fNet s ++ [(KReply c, MReply i rp)]) (fReqs s) (fAnswers s))
    | mv_docs i c req docs : mv s (WLookDocs i c req docs)
        (SStep (WLook i) (fNet s ++ [(KRank i, MDocs c req docs)]) (fReqs s) (fAnswers s))
    | mv_rank i c req docs a b : fNet s = a ++ (KRank i, MDocs c req docs) :: b →
        mv s (WRank i) (SStep (WRankScan i c req docs ([], 0)) (a ++ b) (fReqs s) (fAnswers s))
    | mv_scan i c req d rest acc sh : nowAt (fWorlds s) i = Some sh →
        mv s (WRankScan i c req (d :: rest) acc)
          (SStep (WRankScan i c req rest (rankStep (shRk sh) (shardOpts (rqOpts req)) (rqCountOnly req) acc d))
             (fNet s) (fReqs s) (fAnswers s))
    | mv_scan_crash i c req d rest acc : nowAt (fWorlds s) i = None → mv s (WRankScan i c req (d :: rest) acc) SCrash
    | mv_page i c req acc rp : rankPage sortBy req acc = Some rp →
        mv s (WRankScan i c req [] acc) (SStep (WRankReply i c rp) (fNet s) (fReqs s) (fAnswers s))
    | mv_page_crash i c req acc : rankPage sortBy req acc = None → mv s (WRankScan i c req [] acc) SCrash
    | mv_rank_reply i c rp : mv s (WRankReply i c rp)
        (SStep (WRank i) (fNet s ++ [(KReply c, MReply i rp)]) (fReqs s) (fAnswers s)).

  Lemma fproc_mv late p s r : fproc late p s = Some r → mv s p r.
  Proof.
    intros H. destruct p as [[|req todo]|c req i todo|c req got todo|i|i c req|i c rp|i c req docs|i|i c req [|d rest] acc|i c rp]; cbn in H.
    - done.
    - injection H as <-. constructor.
    - destruct (decide (i < n)%nat); [destruct (room _ _ _ _); [|done]|]; injection H as <-; constructor; lia.
    - destruct (decide (length got < n)%nat).
      + destruct (late && (0 <? rqTimeout req)) eqn:E.
        * injection H as <-. apply andb_prop in E as [_ E%Z.ltb_lt]. by constructor.
        * destruct (firstOf _ _) as [[[] net']|] eqn:E1; try done. injection H as <-.
          apply firstOf_split in E1 as (a & b & E1 & ->). by apply mv_recv.
      + destruct (Ranks _ _ _) eqn:E; injection H as <-; constructor; auto with lia.
    - destruct (firstOf _ _) as [[[] net']|] eqn:E1; try done. injection H as <-.
      apply firstOf_split in E1 as (a & b & E1 & ->). by constructor.
    - destruct (nowAt _ _) as [sh|] eqn:E; [|injection H as <-; constructor; intros ? ?; congruence].
      destruct (Lookup _ _ _ _ _ _ _) as [[docs num]|] eqn:E1; injection H as <-; [by econstructor|].
      constructor. intros ? ?. congruence.
    - destruct (room _ _ _ _); [|done]. injection H as <-. constructor.
    - destruct (room _ _ _ _); [|done]. injection H as <-. constructor.
    - destruct (firstOf _ _) as [[[] net']|] eqn:E1; try done. injection H as <-.
      apply firstOf_split in E1 as (a & b & E1 & ->). by constructor.
    - destruct (rankPage _ _ _) eqn:E; injection H as <-; by constructor.
    - destruct (nowAt _ _) as [sh|] eqn:E; injection H as <-; by constructor.
    - destruct (room _ _ _ _); [|done]. injection H as <-. constructor.
  Qed.

  (** * Where the answers are: one token (search, shard) for each *)
  Definition gtoks (c : nat) (got : list (option (nat * Reply))) : list (nat * nat) :=
    omap (λ e : option (nat * Reply), match e with Some (i, _) => Some (c, i) | None => None end) got.
  Definition ptoks (p : spc) : list (nat * nat) :=
    match p with
    | PSend c _ i _ => pair c <$> seq i (n - i)
    | PGather c _ got _ => gtoks c got
    | WLookGot i c _ | WLookReply i c _ | WLookDocs i c _ _ | WRankScan i c _ _ _ | WRankReply i c _ => [(c, i)]
    | PIdle _ | WLook _ | WRank _ => []
    end.
  Definition mtoks (x : schan * smsg) : list (nat * nat) :=
    match x with
    | (KLook i, MLook c _) | (KRank i, MDocs c _ _) => [(c, i)]
    | (KReply c, MReply i _) => [(c, i)]
    | _ => []
    end.
  Definition atoks (a : fanswer) : list (nat * nat) := gtoks (faSearch a) (faGot a).
  Definition toks (s : fstate) : list (nat * nat) :=
    mjoin (ptoks <$> fProcs s) ++ mjoin (mtoks <$> fNet s) ++ mjoin (atoks <$> fAnswers s).
  Definition allToks (m : nat) : list (nat * nat) := mjoin ((λ c, pair c <$> seq 0 n) <$> seq 0 m).
  Definition owner (p : spc) : list nat :=
    match p with PSend c _ _ _ | PGather c _ _ _ => [c] | _ => [] end.
  Definition owners (s : fstate) : list nat := mjoin (owner <$> fProcs s) ++ (faSearch <$> fAnswers s).
  Definition todos (p : spc) : list SearchReq :=
    match p with PIdle t | PSend _ _ _ t | PGather _ _ _ t => t | _ => [] end.

  Lemma mjoin_fmap_app {A B} (f : A → list B) l1 l2 : mjoin (f <$> l1 ++ l2) = mjoin (f <$> l1) ++ mjoin (f <$> l2).
  Proof. induction l1 as [|x l1 IH]; [done|]. cbn. rewrite <- (assoc_L (++)). f_equal. exact IH. Qed.
  Lemma gtoks_app c a b : gtoks c (a ++ b) = gtoks c a ++ gtoks c b.
  Proof. unfold gtoks. by rewrite omap_app. Qed.
  Lemma allToks_S m : allToks (S m) = allToks m ++ (pair m <$> seq 0 n).
  Proof. unfold allToks. rewrite seq_S, mjoin_fmap_app. cbn. by rewrite app_nil_r. Qed.

  Ltac netE := match goal with E : fNet _ = _ |- _ => rewrite E end.
  Ltac netIn Hm := match goal with E : fNet _ = _ |- _ => rewrite E in Hm end.
  Lemma mv_toks s p p' net reqs ans : mv s p (SStep p' net reqs ans) →
    (length reqs = length (fReqs s) ∧
     ptoks p ++ mjoin (mtoks <$> fNet s) ++ mjoin (atoks <$> fAnswers s) ≡ₚ
       ptoks p' ++ mjoin (mtoks <$> net) ++ mjoin (atoks <$> ans)) ∨
    (length reqs = S (length (fReqs s)) ∧ ptoks p = [] ∧ net = fNet s ∧ ans = fAnswers s ∧
     ptoks p' = pair (length (fReqs s)) <$> seq 0 n).
  Proof.
    intros H. inversion H; subst; clear H; try (left; split; [done|]).
    - right. rewrite app_length. cbn [length ptoks]. rewrite Nat.sub_0_r. repeat split; auto with lia.
    - rewrite mjoin_fmap_app. cbn [ptoks mjoin fmap list_fmap mtoks]. cbn.
      replace (n - i)%nat with (S (n - S i)) by lia. cbn.
      rewrite <- !(assoc_L (++)). cbn. by rewrite <- !Permutation_middle.
    - cbn. by replace (n - i)%nat with 0%nat by lia.
    - cbn. by rewrite gtoks_app, app_nil_r.
    - netE; rewrite !mjoin_fmap_app. cbn. rewrite gtoks_app. cbn. rewrite <- !(assoc_L (++)). cbn. by rewrite <- !Permutation_middle.
    - rewrite mjoin_fmap_app. cbn. rewrite app_nil_r. rewrite (Permutation_app_comm (gtoks _ _)). by rewrite <- (assoc_L (++)).
    - netE; rewrite !mjoin_fmap_app. cbn. rewrite <- !(assoc_L (++)). cbn. by rewrite <- !Permutation_middle.
    - unfold afterLookup. destruct (rqCountOnly req), (zlen docs =? 0), (rqOrderless req); done.
    - rewrite !mjoin_fmap_app. cbn. rewrite <- !(assoc_L (++)). cbn. by rewrite <- !Permutation_middle.
    - rewrite !mjoin_fmap_app. cbn. rewrite <- !(assoc_L (++)). cbn. by rewrite <- !Permutation_middle.
    - netE; rewrite !mjoin_fmap_app. cbn. rewrite <- !(assoc_L (++)). cbn. by rewrite <- !Permutation_middle.
    - done.
    - done.
    - rewrite !mjoin_fmap_app. cbn. rewrite <- !(assoc_L (++)). cbn. by rewrite <- !Permutation_middle.
  Qed.

  Lemma mv_owner s p p' net reqs ans : mv s p (SStep p' net reqs ans) →
    (length reqs = length (fReqs s) ∧ owner p ++ (faSearch <$> fAnswers s) ≡ₚ owner p' ++ (faSearch <$> ans)) ∨
    (length reqs = S (length (fReqs s)) ∧ owner p = [] ∧ ans = fAnswers s ∧ owner p' = [length (fReqs s)]).
  Proof.
    intros H. inversion H; subst; clear H; try (left; split; done).
    - right. rewrite app_length. cbn. repeat split; auto with lia.
    - left. split; [done|]. rewrite fmap_app. cbn. by rewrite Permutation_app_comm.
    - left. split; [done|]. unfold afterLookup. destruct (rqCountOnly req), (zlen docs =? 0), (rqOrderless req); done.
  Qed.
  Lemma mv_todos s p p' net reqs ans : mv s p (SStep p' net reqs ans) →
    todos p ++ (fReqs s).*1 ≡ₚ todos p' ++ reqs.*1.
  Proof.
    intros H. inversion H; subst; clear H; try done.
    - rewrite fmap_app. cbn. by rewrite (assoc_L (++)), <- Permutation_cons_append.
    - unfold afterLookup. destruct (rqCountOnly req), (zlen docs =? 0), (rqOrderless req); done.
  Qed.

  (** * Shapes *)
  Inductive role := RClient | RLook (i : nat) | RRank (i : nat).
  Definition roleOf (p : spc) : role :=
    match p with
    | PIdle _ | PSend _ _ _ _ | PGather _ _ _ _ => RClient
    | WLook i | WLookGot i _ _ | WLookReply i _ _ | WLookDocs i _ _ _ => RLook i
    | WRank i | WRankScan i _ _ _ _ | WRankReply i _ _ => RRank i
    end.
  Definition goodMsg (x : schan * smsg) : Prop :=
    match x with
    | (KLook i, MLook _ _) | (KRank i, MDocs _ _ _) | (KReply _, MReply i _) => (i < n)%nat
    | _ => False
    end.
  Definition goodProc (p : spc) : Prop :=
    match p with
    | PIdle _ => True
    | PSend _ _ i _ => (i <= n)%nat
    | PGather _ _ got _ => (length got <= n)%nat
    | _ => match roleOf p with RLook i | RRank i => (i < n)%nat | RClient => True end
    end.
  Lemma mv_role s p p' net reqs ans : mv s p (SStep p' net reqs ans) → roleOf p' = roleOf p.
  Proof.
    intros H. inversion H; subst; clear H; try done.
    unfold afterLookup. destruct (rqCountOnly req), (zlen docs =? 0), (rqOrderless req); done.
  Qed.
  Lemma mv_good s p p' net reqs ans : mv s p (SStep p' net reqs ans) →
    goodProc p → Forall goodMsg (fNet s) → goodProc p' ∧ Forall goodMsg net.
  Proof.
    intros H Hp Hm. inversion H; subst; clear H; cbn in Hp; rewrite ?Forall_app, ?Forall_singleton; cbn;
      rewrite ?app_length; cbn; try (split; [lia|done]); try (repeat split; try done; lia).
    - netIn Hm. apply Forall_app in Hm as [Ha Hb]. apply Forall_cons in Hb as [Hb Hc]. repeat split; auto with lia.
    - netIn Hm. apply Forall_app in Hm as [Ha Hb]. apply Forall_cons in Hb as [Hb Hc]. done.
    - split; [|done]. unfold afterLookup. destruct (rqCountOnly req), (zlen docs =? 0), (rqOrderless req); done.
    - netIn Hm. apply Forall_app in Hm as [Ha Hb]. apply Forall_cons in Hb as [Hb Hc]. done.
  Qed.

  (** * The invariant *)
  Record finv (programs : list (list SearchReq)) (roles : list role) (s : fstate) : Prop := {
    fi_toks : toks s ≡ₚ allToks (length (fReqs s));
    fi_owners : owners s ≡ₚ seq 0 (length (fReqs s));
    fi_todos : mjoin (todos <$> fProcs s) ++ (fReqs s).*1 ≡ₚ mjoin programs;
    fi_roles : roleOf <$> fProcs s = roles;
    fi_procs : Forall goodProc (fProcs s);
    fi_msgs : Forall goodMsg (fNet s);
    fi_got : Forall (λ a, length (faGot a) = n) (fAnswers s)
  }.

  Lemma perm_swap_tail {A} (X Y P P' R R' : list A) :
    X ++ P ≡ₚ Y ++ P' → P' ++ R ≡ₚ P ++ R' → Y ++ R' ≡ₚ X ++ R.
  Proof.
    intros H1 H2. apply (Permutation_app_inv_r P'). rewrite <- (assoc_L (++)), (Permutation_app_comm R' P').
    rewrite (Permutation_app_comm R' P') at 1 || idtac.
    rewrite (assoc_L (++) Y). rewrite <- H1. rewrite <- !(assoc_L (++)). by rewrite (Permutation_app_comm R P'), H2.
  Qed.
  Lemma finv_step programs roles l s s' : finv programs roles s → fstep l s = Some s' → finv programs roles s'.
  Proof.
    intros [H1 H2 H3 H4 H5 H6 H7]. unfold fstep. destruct (fCrash s); [done|]. destruct l as [k late|i sh].
    2:{ destruct (last (fWorlds s)); [|done]. cbn. intros [= <-]. by constructor. }
    destruct (fProcs s !! k) as [p|] eqn:Ek; [|done]. cbn. destruct (fproc late p s) as [r|] eqn:Er; [|done]. cbn.
    intros [= <-]. apply fproc_mv in Er. destruct r as [p' net reqs ans|]; [|by constructor].
    pose proof (mjoin_insert ptoks _ _ _ p' Ek) as Ht. pose proof (mjoin_insert owner _ _ _ p' Ek) as Ho.
    pose proof (mjoin_insert todos _ _ _ p' Ek) as Hd.
    assert (Hp : goodProc p). { rewrite Forall_lookup in H5. by apply (H5 k). }
    destruct (mv_good _ _ _ _ _ _ Er Hp H6) as [Hp' Hm'].
    constructor; cbn [fProcs fNet fReqs fAnswers]; unfold toks, owners in *; cbn [fProcs fNet fReqs fAnswers].
    - destruct (mv_toks _ _ _ _ _ _ Er) as [[-> E]|(-> & E1 & -> & -> & E2)].
      + rewrite <- H1. eapply perm_swap_tail; [symmetry; exact Ht|exact E].
      + rewrite allToks_S, <- H1. rewrite E1, E2, app_nil_r in Ht. rewrite Ht. rewrite <- !(assoc_L (++)).
        apply Permutation_app_head. rewrite (Permutation_app_comm (pair _ <$> _)). by rewrite <- (assoc_L (++)).
    - destruct (mv_owner _ _ _ _ _ _ Er) as [[-> E]|(-> & E1 & -> & E2)].
      + rewrite <- H2. eapply perm_swap_tail; [symmetry; exact Ho|exact E].
      + rewrite seq_S, <- H2. rewrite E1, E2, app_nil_r in Ho. rewrite Ho. rewrite <- !(assoc_L (++)).
        apply Permutation_app_head. by rewrite (Permutation_app_comm [_]).
    - rewrite <- H3. eapply perm_swap_tail; [symmetry; exact Hd|]. by eapply mv_todos.
    - rewrite list_fmap_insert, (mv_role _ _ _ _ _ _ Er). rewrite list_insert_id; [done|]. by rewrite list_lookup_fmap, Ek.
    - by apply Forall_insert.
    - done.
    - inversion Er; subst; try done. rewrite Forall_app, Forall_singleton. split; [done|]. cbn in Hp |- *. lia.
  Qed.

  Lemma mjoin_nil {A B} (f : A → list B) l : (∀ x, x ∈ l → f x = []) → mjoin (f <$> l) = [].
  Proof.
    induction l as [|x l IH]; intros H; [done|]. cbn. rewrite (H x) by by left. apply IH. intros y Hy. apply H. by right.
  Qed.
  Lemma init_procs programs tl tr p : p ∈ fProcs (fInit n programs tl tr []) →
    (∃ t, p = PIdle t ∧ t ∈ programs) ∨ ∃ i, (i < n)%nat ∧ (p = WLook i ∨ p = WRank i).
  Proof.
    cbn. rewrite elem_of_app, elem_of_list_fmap. intros [(t & -> & H)|H]; [left; by exists t|right].
    apply elem_of_list_join in H as (l & H & (i & -> & Hi)%elem_of_list_fmap). exists i.
    apply elem_of_seq in Hi. split; [lia|]. apply elem_of_app in H as [H|H]; apply elem_of_replicate in H as [-> _]; auto.
  Qed.
  Lemma finv_init programs tl tr shards :
    finv programs (roleOf <$> fProcs (fInit n programs tl tr [])) (fInit n programs tl tr shards).
  Proof.
    pose proof (init_procs programs tl tr) as H.
    constructor; unfold toks, owners; cbn [fProcs fNet fReqs fAnswers length]; try done.
    - rewrite mjoin_nil; [done|]. intros p Hp. by destruct (H p Hp) as [(t & -> & _)|(i & _ & [->| ->])].
    - rewrite mjoin_nil; [done|]. intros p Hp. by destruct (H p Hp) as [(t & -> & _)|(i & _ & [->| ->])].
    - cbn. rewrite app_nil_r, mjoin_fmap_app, (mjoin_nil _ (mjoin _)), app_nil_r.
      + rewrite <- list_fmap_compose. by rewrite list_fmap_id.
      + intros p Hp. apply elem_of_list_join in Hp as (l & Hp & (i & -> & Hi)%elem_of_list_fmap).
        by apply elem_of_app in Hp as [Hp|Hp]; apply elem_of_replicate in Hp as [-> _].
    - apply Forall_forall. intros p Hp. destruct (H p Hp) as [(t & -> & _)|(i & Hi & [->| ->])]; done.
    - constructor.
    - constructor.
  Qed.
  Lemma finv_run programs roles ls s s' : finv programs roles s → frun log2 sortBy n cap ls s = Some s' → finv programs roles s'.
  Proof.
    revert s. induction ls as [|l ls IH]; intros s H; cbn; [by intros [= <-]|].
    destruct (fstep l s) as [s1|] eqn:E; [|done]. cbn. apply IH. by eapply finv_step.
  Qed.
End Inv.
