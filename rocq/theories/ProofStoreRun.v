(** Executions of the store side. *)
From Verif Require Import ModelStore SpecStore SpecIndexer ProofSegment ProofTopK ProofEngine ProofStore.

Section Written.
  Variable accepts : string → string → bool.
  Variable encode : DocData → option string.
  Notation written := (written accepts encode).
  Notation writable := (writable accepts encode).
  Lemma written_writable id d v : written id d = Some v ↔ writable id d v.
  Proof.
    unfold ModelStore.written, SpecStore.writable. destruct (encode d) as [v'|]; [|naive_solver].
    destruct (accepts id v') eqn:E; naive_solver congruence.
  Qed.
  Lemma written_none id d : written id d = None ↔ ∀ v, ¬ writable id d v.
  Proof.
    destruct (written id d) as [v|] eqn:E.
    - apply written_writable in E. naive_solver.
    - split; [|done]. intros _ v Hv%written_writable. congruence.
  Qed.
End Written.

Section Run.
  Variable accepts : string → string → bool.
  Variable encode : DocData → option string.
  Variable murmur : string → Z.
  Variable n : Z.
  Notation step := (storeStep accepts encode murmur n).
  Notation shard id := (Z.to_nat (storeShard murmur n id)).
  Notation written := (written accepts encode).
  Notation writable := (writable accepts encode).

  Lemma shard_range id : 1 <= n → 0 <= storeShard murmur n id < n.
  Proof. intros Hn. unfold storeShard. apply Z.mod_pos_bound. lia. Qed.

  (** * Steps, case by case *)
  Inductive istep : sstate → sstate → Prop :=
    | i_call cl w d l k c call cs : cl !! k = Some c → scActs c = [] → scCalls c = call :: cs →
        istep (mkSS cl w d l) (mkSS (<[k := mkSC cs (scallActs call) 0]> cl) w d l)
    | i_req cl w d l k c acts : cl !! k = Some c → scActs c = SReq :: acts →
        istep (mkSS cl w d l) (mkSS (<[k := mkSC (scCalls c) acts (scReg c)]> cl) w d (l ++ [EvReq]))
    | i_send cl w d l k c acts id dat : cl !! k = Some c → scActs c = SSend id dat :: acts → w !! shard id = Some WIdle →
        istep (mkSS cl w d l) (mkSS (<[k := mkSC (scCalls c) acts (scReg c)]> cl) (<[shard id := WHold id dat]> w) d (l ++ [EvSent id dat]))
    | i_spawn cl w d l k c acts id : cl !! k = Some c → scActs c = SSpawn id :: acts →
        istep (mkSS cl w d l) (mkSS (<[k := mkSC (scCalls c) acts (scReg c)]> cl) w (d ++ [id]) (l ++ [EvSpawn id]))
    | i_read cl w d l k c acts : cl !! k = Some c → scActs c = SRead :: acts →
        istep (mkSS cl w d l) (mkSS (<[k := mkSC (scCalls c) acts (numReqs l)]> cl) w d l)
    | i_pass cl w d l k c acts : cl !! k = Some c → scActs c = SLoop :: acts → scReg c = numStored l →
        istep (mkSS cl w d l) (mkSS (<[k := mkSC (scCalls c) acts (scReg c)]> cl) w d l)
    | i_wait cl w d l k c acts : cl !! k = Some c → scActs c = SLoop :: acts →
        istep (mkSS cl w d l) (mkSS (<[k := mkSC (scCalls c) (SRead :: SLoop :: acts) (scReg c)]> cl) w d l)
    | i_alt cl w d l k c acts : cl !! k = Some c → scActs c = SRead :: SLoop :: acts →
        istep (mkSS cl w d l) (mkSS (<[k := mkSC (scCalls c) (SLoopReqs :: acts) (numStored l)]> cl) w d l)
    | i_apass cl w d l k c acts : cl !! k = Some c → scActs c = SLoopReqs :: acts → scReg c = numReqs l →
        istep (mkSS cl w d l) (mkSS (<[k := mkSC (scCalls c) acts (scReg c)]> cl) w d l)
    | i_await cl w d l k c acts : cl !! k = Some c → scActs c = SLoopReqs :: acts →
        istep (mkSS cl w d l) (mkSS (<[k := mkSC (scCalls c) (SRead :: SLoop :: acts) (scReg c)]> cl) w d l)
    | i_write cl w d l j id dat : w !! j = Some (WHold id dat) →
        istep (mkSS cl w d l) (mkSS cl (<[j := WWritten]> w) d (l ++ [EvWrite id (written id dat)]))
    | i_stored cl w d l j : w !! j = Some WWritten →
        istep (mkSS cl w d l) (mkSS cl (<[j := WIdle]> w) d (l ++ [EvStored]))
    | i_del cl w d l k id : d !! k = Some id →
        istep (mkSS cl w d l) (mkSS cl w (delete k d) (l ++ [EvDel id])).
  Lemma step_i s s' : step s s' → istep s s'.
  Proof.
    intros [[k|k|j|k] H]; destruct s as [cl w d l]; cbn [smoveStep] in H.
    - unfold clientStep in H. cbn in H. destruct (cl !! k) as [c|] eqn:Hc; [|done]. cbn in H.
      destruct (scActs c) as [|a acts] eqn:Ha.
      + destruct (scCalls c) as [|call cs] eqn:Hs; [done|]. injection H as <-. by eapply i_call.
      + destruct a.
        * injection H as <-. by eapply i_req.
        * destruct (w !! shard docId) as [[]|] eqn:Hw; try done. injection H as <-. by eapply i_send.
        * injection H as <-. by eapply i_spawn.
        * injection H as <-. by eapply i_read.
        * injection H as <-. destruct (scReg c =? numStored l) eqn:E.
          -- apply Z.eqb_eq in E. by eapply i_pass.
          -- by eapply i_wait.
        * injection H as <-. destruct (scReg c =? numReqs l) eqn:E.
          -- apply Z.eqb_eq in E. by eapply i_apass.
          -- by eapply i_await.
    - unfold altRead in H. cbn in H. destruct (cl !! k) as [c|] eqn:Hc; [|done]. cbn in H.
      destruct (scActs c) as [|[] [|[] acts]] eqn:Ha; try done. injection H as <-. by eapply i_alt.
    - unfold workerStep in H. cbn in H. destruct (w !! j) as [[]|] eqn:Hw; try done; injection H as <-.
      + by apply i_write.
      + by apply i_stored.
    - unfold delStep in H. cbn in H. destruct (d !! k) as [id|] eqn:Hd; [|done]. injection H as <-. by apply i_del.
  Qed.

  (** * Contents *)
  Variable dbs : Z → kv.
  Definition content (id : string) (log : list sevent) : option string :=
    dbAfter murmur n dbs log (storeShard murmur n id) !! id.
  Lemma content_nil id : content id [] = dbs (storeShard murmur n id) !! id.
  Proof. done. Qed.
  Lemma content_snoc id log e : content id (log ++ [e]) =
    match e with
    | EvWrite id' (Some v) => if decide (id' = id) then Some v else content id log
    | EvDel id' => if decide (id' = id) then None else content id log
    | _ => content id log
    end.
  Proof.
    unfold content, dbAfter. rewrite foldl_app. cbn [foldl]. destruct e as [| | |id' [v|]| |id']; try done; cbn [dbEvent]; case_decide as E.
    - subst. rewrite Z.eqb_refl. by rewrite lookup_insert.
    - destruct (_ =? _); [|done]. by rewrite lookup_insert_ne.
    - subst. rewrite Z.eqb_refl. unfold Delete. by rewrite lookup_delete.
    - destruct (_ =? _); [|done]. unfold Delete. by rewrite lookup_delete_ne.
  Qed.
  (** Nothing else is touched. *)
  Lemma other_shard id log j : storeShard murmur n id ≠ j → dbAfter murmur n dbs log j !! id = dbs j !! id.
  Proof.
    intros Hj. unfold dbAfter. induction log as [|e log IH] using rev_ind; [done|]. rewrite foldl_app. cbn [foldl].
    rewrite <-IH. destruct e as [| | |id' [v|]| |id']; try done; cbn [dbEvent]; destruct (_ =? _) eqn:E; try done; apply Z.eqb_eq in E.
    - rewrite lookup_insert_ne by congruence. done.
    - unfold Delete. rewrite lookup_delete_ne by congruence. done.
  Qed.

  Definition sents (id : string) (log : list sevent) : list (option string) :=
    omap (λ e, match e with EvSent id' d => if decide (id' = id) then Some (written id d) else None | _ => None end) log.
  Definition writes (id : string) (log : list sevent) : list (option string) :=
    omap (λ e, match e with EvWrite id' v => if decide (id' = id) then Some v else None | _ => None end) log.
  Definition hold (id : string) (w : list sworker) : list (option string) :=
    match w !! shard id with
    | Some (WHold id' d) => if decide (id' = id) then [written id d] else []
    | _ => []
    end.
  Definition isSpawn (id : string) (e : sevent) : bool := match e with EvSpawn id' => bool_decide (id' = id) | _ => false end.
  Definition isDel (id : string) (e : sevent) : bool := match e with EvDel id' => bool_decide (id' = id) | _ => false end.
  Definition isSent (e : sevent) : bool := match e with EvSent _ _ => true | _ => false end.
  Definition spawned (id : string) (log : list sevent) : nat := length (filter (λ e, isSpawn id e = true) log).
  Definition deleted (id : string) (log : list sevent) : nat := length (filter (λ e, isDel id e = true) log).
  Definition pending (id : string) (d : list string) : nat := length (filter (λ x, x = id) d).

  Record sinv (s : sstate) : Prop := {
    si_len : length (ssWork s) = Z.to_nat n;
    si_place : ∀ j id d, ssWork s !! j = Some (WHold id d) → j = shard id;
    si_fifo : ∀ id, sents id (ssLog s) = writes id (ssLog s) ++ hold id (ssWork s);
    si_dels : ∀ id, spawned id (ssLog s) = (deleted id (ssLog s) + pending id (ssDels s))%nat }.

  Lemma omap_snoc {A B} (f : A → option B) l x : omap f (l ++ [x]) = omap f l ++ match f x with Some y => [y] | None => [] end.
  Proof. rewrite omap_app. cbn. by destruct (f x). Qed.
  Lemma filter_len_snoc {A} (P : A → Prop) `{!∀ x, Decision (P x)} l x :
    length (filter P (l ++ [x])) = (length (filter P l) + if decide (P x) then 1 else 0)%nat.
  Proof. rewrite filter_app, app_length. f_equal. cbn. by destruct (decide (P x)). Qed.
  Lemma filter_blen_snoc {A} (p : A → bool) l x :
    length (filter (λ x, p x = true) (l ++ [x])) = (length (filter (λ x, p x = true) l) + if p x then 1 else 0)%nat.
  Proof. rewrite filter_len_snoc. by destruct (p x). Qed.
  Lemma pending_delete id d k x : d !! k = Some x →
    pending id d = (pending id (delete k d) + if decide (x = id) then 1 else 0)%nat.
  Proof.
    intros H. unfold pending. rewrite (delete_Permutation d k x H) at 1. rewrite filter_cons. case_decide; cbn [length]; lia.
  Qed.
  Lemma hold_insert id w k v : k ≠ shard id → hold id (<[k := v]> w) = hold id w.
  Proof. intros H. unfold hold. by rewrite list_lookup_insert_ne. Qed.
  Lemma hold_insert_eq id w v : (shard id < length w)%nat → hold id (<[shard id := v]> w) =
    match v with WHold id' d => if decide (id' = id) then [written id d] else [] | _ => [] end.
  Proof. intros H. unfold hold. by rewrite list_lookup_insert. Qed.

  Lemma sinv_step s s' : istep s s' → sinv s → sinv s'.
  Proof.
    intros Hs [H1 H2 H3 H4]. destruct Hs; cbn [ssWork ssLog ssDels ssClients] in *; constructor; cbn [ssWork ssLog ssDels]; try done; rewrite ?insert_length; try done.
    - intros id. specialize (H3 id). unfold sents, writes in *. rewrite !omap_snoc. by rewrite !app_nil_r.
    - intros id. unfold spawned, deleted. rewrite !filter_blen_snoc. cbn [isSpawn isDel]. specialize (H4 id). unfold spawned, deleted in H4. lia.
    - intros j id' d'. destruct (decide (j = shard id)) as [->|Hj].
      + rewrite list_lookup_insert by (by eapply lookup_lt_Some). by intros [= -> ->].
      + rewrite list_lookup_insert_ne by done. by apply H2.
    - intros id'. specialize (H3 id'). unfold sents, writes in *. rewrite !omap_snoc, app_nil_r.
      destruct (decide (shard id = shard id')) as [E|E].
      + rewrite H3, <-app_assoc. f_equal. rewrite E. rewrite hold_insert_eq by (rewrite <-E; by eapply lookup_lt_Some).
        unfold hold. rewrite <-E, H5. cbn. case_decide; [subst; done|done].
      + rewrite hold_insert by done. case_decide; [by subst|]. by rewrite app_nil_r.
    - intros id'. unfold spawned, deleted. rewrite !filter_blen_snoc. cbn [isSpawn isDel]. specialize (H4 id'). unfold spawned, deleted in H4. lia.
    - intros id'. specialize (H3 id'). unfold sents, writes in *. rewrite !omap_snoc. by rewrite !app_nil_r.
    - intros id'. unfold spawned, deleted, pending. rewrite !filter_blen_snoc, filter_len_snoc. specialize (H4 id'). unfold spawned, deleted, pending in H4.
      rewrite H4. cbn [isSpawn isDel]. destruct (decide (id = id')); [rewrite bool_decide_eq_true_2 by done|rewrite bool_decide_eq_false_2 by done]; lia.
    - intros j' id' d'. destruct (decide (j' = j)) as [->|Hj].
      + rewrite list_lookup_insert by (by eapply lookup_lt_Some). done.
      + rewrite list_lookup_insert_ne by done. by apply H2.
    - intros id'. specialize (H3 id'). pose proof (H2 _ _ _ H) as ->. unfold sents, writes in *. rewrite !omap_snoc, app_nil_r.
      destruct (decide (shard id = shard id')) as [E|E].
      + rewrite H3, <-app_assoc. f_equal. rewrite E. rewrite hold_insert_eq by (rewrite <-E; by eapply lookup_lt_Some).
        unfold hold. rewrite <-E, H. case_decide; [subst; by rewrite app_nil_r|done].
      + rewrite hold_insert by done. case_decide; [by subst|]. by rewrite app_nil_r.
    - intros id'. unfold spawned, deleted. rewrite !filter_blen_snoc. cbn [isSpawn isDel]. specialize (H4 id'). unfold spawned, deleted in H4. lia.
    - intros j' id' d'. destruct (decide (j' = j)) as [->|Hj].
      + rewrite list_lookup_insert by (by eapply lookup_lt_Some). done.
      + rewrite list_lookup_insert_ne by done. by apply H2.
    - intros id'. specialize (H3 id'). unfold sents, writes in *. rewrite !omap_snoc, !app_nil_r. rewrite H3. f_equal.
      destruct (decide (j = shard id')) as [->|E]; [|by rewrite hold_insert].
      rewrite hold_insert_eq by (by eapply lookup_lt_Some). unfold hold. by rewrite H.
    - intros id'. unfold spawned, deleted. rewrite !filter_blen_snoc. cbn [isSpawn isDel]. specialize (H4 id'). unfold spawned, deleted in H4. lia.
    - intros id'. specialize (H3 id'). unfold sents, writes in *. rewrite !omap_snoc. by rewrite !app_nil_r.
    - intros id'. unfold spawned, deleted. rewrite !filter_blen_snoc. specialize (H4 id'). unfold spawned, deleted in H4.
      rewrite (pending_delete id' _ _ _ H) in H4. rewrite H4. cbn [isSpawn isDel]. destruct (decide (id = id')); [rewrite bool_decide_eq_true_2 by done|rewrite bool_decide_eq_false_2 by done]; lia.
  Qed.
  Lemma sinv_start progs : sinv (storeStart n progs).
  Proof.
    constructor; cbn; try done.
    - by rewrite replicate_length.
    - intros j id d H. apply lookup_replicate in H as [H _]. done.
    - intros id. unfold hold. destruct (replicate _ _ !! _) eqn:E; [|done]. apply lookup_replicate in E as [-> _]. done.
  Qed.
  Lemma sinv_reach progs s : store_reach accepts encode murmur n progs s → sinv s.
  Proof.
    intros H. unfold store_reach in H. revert s H. apply (rtc_ind_r (R := step) sinv (storeStart n progs)); [apply sinv_start|].
    intros y z _ Hs%step_i. by apply sinv_step.
  Qed.

  (** * What the content can be *)
  Lemma content_cases id log :
    (∃ v w1 w2, writes id log = w1 ++ Some v :: w2 ∧ Forall (eq None) w2 ∧ content id log = Some v) ∨
    (content id log = None ∧ EvDel id ∈ log) ∨
    (content id log = dbs (storeShard murmur n id) !! id ∧ Forall (eq None) (writes id log) ∧ EvDel id ∉ log).
  Proof.
    induction log as [|e log IH] using rev_ind.
    { right; right. split; [done|]. split; [constructor|]. apply not_elem_of_nil. }
    rewrite content_snoc. unfold writes in *. rewrite omap_snoc.
    assert (Hkeep : (∀ id' v, e = EvWrite id' v → id' ≠ id) → (∀ id', e = EvDel id' → id' ≠ id) →
      (∃ v w1 w2, writes id log = w1 ++ Some v :: w2 ∧ Forall (eq None) w2 ∧ content id log = Some v) ∨
      (content id log = None ∧ EvDel id ∈ log ++ [e]) ∨
      (content id log = dbs (storeShard murmur n id) !! id ∧ Forall (eq None) (writes id log) ∧ EvDel id ∉ log ++ [e])).
    { intros _ Hd. destruct IH as [IH|[[Hc IH]|[Hc [Hw IH]]]]; [by left| |].
      - right; left. split; [done|]. apply elem_of_app. by left.
      - right; right. split; [done|]. split; [done|]. rewrite elem_of_app, elem_of_list_singleton. intros [?|E]; [done|].
        by eapply Hd. }
    destruct e as [| | |id' v| |id']; try (rewrite app_nil_r; by apply Hkeep).
    - case_decide as E.
      + subst. destruct v as [v|].
        * left. exists v. eexists _, []. done.
        * destruct IH as [(v & w1 & w2 & Hw & Hn2 & Hc)|[[Hc IH]|[Hc [Hw IH]]]].
          -- left. exists v, w1, (w2 ++ [None]). rewrite Hw, <-app_assoc. split; [done|]. split; [|done].
             apply Forall_app. split; [done|]. by constructor.
          -- right; left. split; [done|]. apply elem_of_app. by left.
          -- right; right. split; [done|]. split; [apply Forall_app; split; [done|by constructor]|].
             rewrite elem_of_app, elem_of_list_singleton. by intros [?|?].
      + rewrite app_nil_r. assert ((match v with Some _ => content id log | None => content id log end) = content id log) as -> by by destruct v.
        apply Hkeep; naive_solver.
    - rewrite app_nil_r. case_decide as E.
      + subst. right; left. split; [done|]. apply elem_of_app. right. by apply elem_of_list_singleton.
      + apply Hkeep; naive_solver.
  Qed.

  (** * One client *)
  Definition todo (c : sclient) : list sact := scActs c ++ mjoin (scallActs <$> scCalls c).
  Definition actReq (a : sact) : option scall :=
    match a with SSend id d => Some (SIndex id d) | SSpawn id => Some (SRemove id) | _ => None end.
  Definition ordinary (c : scall) : Prop :=
    match c with SIndex id _ | SRemove id => id ≠ "0" | SFlush => False end.
  Global Instance ordinary_dec c : Decision (ordinary c).
  Proof. destruct c; apply _. Defined.

  Lemma requests_snoc log e : requests (log ++ [e]) = requests log ++
    match e with EvSent id d => [SIndex id d] | EvSpawn id => [SRemove id] | _ => [] end.
  Proof. unfold requests. rewrite omap_snoc. by destruct e. Qed.
  Lemma todo_calls cs : omap actReq (mjoin (scallActs <$> cs)) = filter ordinary cs.
  Proof.
    induction cs as [|c cs IH]; [done|]. rewrite fmap_cons, join_cons, omap_app, IH, filter_cons.
    destruct c as [id d|id|]; cbn; [| |done]; case_decide as E.
    - by apply seqb_neq in E as ->.
    - apply seqb_eq in E as ->. done.
    - by apply seqb_neq in E as ->.
    - apply seqb_eq in E as ->. done.
  Qed.

  Definition nsents (log : list sevent) : Z := zlen (filter (λ e, isSent e = true) log).
  Lemma nsents_snoc log e : nsents (log ++ [e]) = nsents log + match e with EvSent _ _ => 1 | _ => 0 end.
  Proof. unfold nsents, zlen. rewrite filter_blen_snoc. destruct e; cbn [isSent]; lia. Qed.

  Definition one (cs : list scall) (s : sstate) : Prop :=
    ∃ c, ssClients s = [c] ∧ requests (ssLog s) ++ omap actReq (todo c) = filter ordinary cs ∧
      numReqs (ssLog s) = nsents (ssLog s) +
        (match scActs c with SSend _ _ :: _ => 1 | _ => 0 end) ∧
      (match scActs c with
       | SLoop :: _ => scReg c = numReqs (ssLog s) | SLoopReqs :: _ => scReg c <= numStored (ssLog s) | _ => True end) ∧
      (∃ call, scActs c `suffix_of` scallActs call ∨ scActs c = [SRead; SLoop] ∨ scActs c = [SLoopReqs]).

  Lemma sacts_inv call acts a : a :: acts `suffix_of` scallActs call ∨ a :: acts = [SRead; SLoop] ∨ a :: acts = [SLoopReqs] →
    match a with
    | SReq => ∃ id d, acts = [SSend id d]
    | SRead => acts = [SLoop]
    | _ => acts = []
    end.
  Proof.
    assert (Hsuf : ∀ l, a :: acts `suffix_of` l → ∃ p, l = p ++ a :: acts) by (intros l [p ->]; eauto).
    intros [H|[H|H]]; [|by injection H as -> ->|by injection H as -> ->].
    apply Hsuf in H as [p Hp].
    assert (Hl : ∀ (x y : sact), [x; y] = p ++ a :: acts → (a = x ∧ acts = [y]) ∨ (a = y ∧ acts = [])).
    { intros x y E. destruct p as [|p1 [|p2 p]]; cbn in E.
      - injection E as <- <-. by left.
      - injection E as _ <- <-. by right.
      - injection E as _ _ E. by destruct p. }
    destruct call as [id d|id|]; cbn in Hp.
    - destruct (seqb id "0"); [by destruct p|]. apply Hl in Hp as [[-> ->]|[-> ->]]; eauto.
    - destruct (seqb id "0"); [by destruct p|]. destruct p as [|? [|]]; [|done|done]. by injection Hp as <- <-.
    - apply Hl in Hp as [[-> ->]|[-> ->]]; done.
  Qed.

  Lemma nreqs_snoc log e : numReqs (log ++ [e]) = numReqs log + if isReq e then 1 else 0.
  Proof. unfold numReqs, zlen. rewrite (filter_blen_snoc isReq). destruct (isReq e); lia. Qed.
  Lemma nstored_snoc log e : numStored (log ++ [e]) = numStored log + if isStored e then 1 else 0.
  Proof. unfold numStored, zlen. rewrite (filter_blen_snoc isStored). destruct (isStored e); lia. Qed.
  Lemma suffix_tail {A} (a : A) l l2 : a :: l `suffix_of` l2 → l `suffix_of` l2.
  Proof. intros [p ->]. exists (p ++ [a]). by rewrite <-app_assoc. Qed.

  Lemma one_step cs s s' : istep s s' → one cs s → one cs s'.
  Proof.
    intros Hs (c0 & Hc & Hr & Hq & Hg & call0 & Ha).
    destruct Hs; cbn [ssClients ssLog ssWork ssDels] in *; subst.
    1-10: destruct k as [|k]; [|done]; cbn in H; injection H as ->.
    - exists (mkSC cs0 (scallActs call) 0). split; [done|]. rewrite H0 in Hq. unfold todo in *. cbn [scActs scCalls scReg ssLog] in *.
      rewrite H0, H1, fmap_cons, join_cons in Hr. split; [done|].
      split; [rewrite Hq; destruct call as [id d'|id|]; cbn; [destruct (seqb id "0")|destruct (seqb id "0")|]; done|].
      split; [destruct call as [id d'|id|]; cbn; [destruct (seqb id "0")|destruct (seqb id "0")|]; done|].
      exists call. by left.
    - rewrite H0 in *. destruct (sacts_inv _ _ _ Ha) as (id & dd & ->).
      eexists. split; [done|]. unfold todo in *. cbn [scActs scCalls scReg ssLog] in *. rewrite H0 in Hr. cbn [app omap list_omap actReq] in Hr.
      rewrite requests_snoc, app_nil_r, nreqs_snoc. split; [done|]. split; [|split; [done|]].
      + rewrite nsents_snoc. cbn. lia.
      + exists call0. left. destruct Ha as [Ha|[Ha|Ha]]; [|done|done]. by eapply suffix_tail.
    - rewrite H0 in *. pose proof (sacts_inv _ _ _ Ha) as Hn0. cbn in Hn0. subst.
      eexists. split; [done|]. unfold todo in *. cbn [scActs scCalls scReg ssLog] in *. rewrite H0 in Hr. cbn [app omap list_omap actReq] in Hr.
      rewrite requests_snoc, <-app_assoc, nreqs_snoc. split; [done|]. split; [|split; [done|]].
      + rewrite nsents_snoc. cbn. lia.
      + exists call0. left. exists (scallActs call0). by rewrite app_nil_r.
    - rewrite H0 in *. pose proof (sacts_inv _ _ _ Ha) as Hn0. cbn in Hn0. subst.
      eexists. split; [done|]. unfold todo in *. cbn [scActs scCalls scReg ssLog] in *. rewrite H0 in Hr. cbn [app omap list_omap actReq] in Hr.
      rewrite requests_snoc, <-app_assoc, nreqs_snoc. split; [done|]. split; [|split; [done|]].
      + rewrite nsents_snoc. cbn. lia.
      + exists call0. left. exists (scallActs call0). by rewrite app_nil_r.
    - rewrite H0 in *. pose proof (sacts_inv _ _ _ Ha) as Hn0. cbn in Hn0. subst.
      eexists. split; [done|]. unfold todo in *. cbn [scActs scCalls scReg ssLog] in *. rewrite H0 in Hr. cbn [app omap list_omap actReq] in Hr.
      split; [done|]. split; [|split; [done|]].
      + done.
      + exists SFlush. left. by exists [SRead].
    - rewrite H0 in *. pose proof (sacts_inv _ _ _ Ha) as Hn0. cbn in Hn0. subst.
      eexists. split; [done|]. unfold todo in *. cbn [scActs scCalls scReg ssLog] in *. rewrite H0 in Hr. cbn [app omap list_omap actReq] in Hr.
      split; [done|]. split; [|split; [done|]].
      + done.
      + exists call0. left. exists (scallActs call0). by rewrite app_nil_r.
    - rewrite H0 in *. pose proof (sacts_inv _ _ _ Ha) as Hn0. cbn in Hn0. subst.
      eexists. split; [done|]. unfold todo in *. cbn [scActs scCalls scReg ssLog] in *. rewrite H0 in Hr. cbn [app omap list_omap actReq] in Hr.
      split; [done|]. split; [|split; [done|]].
      + done.
      + exists call0. by right; left.
    - rewrite H0 in *. pose proof (sacts_inv _ _ _ Ha) as Hn0. cbn in Hn0. injection Hn0 as ->.
      eexists. split; [done|]. unfold todo in *. cbn [scActs scCalls scReg ssLog] in *. rewrite H0 in Hr. cbn [app omap list_omap actReq] in Hr.
      split; [done|]. split; [|split; [lia|]].
      + done.
      + exists call0. by right; right.
    - rewrite H0 in *. pose proof (sacts_inv _ _ _ Ha) as Hn0. cbn in Hn0. subst.
      eexists. split; [done|]. unfold todo in *. cbn [scActs scCalls scReg ssLog] in *. rewrite H0 in Hr. cbn [app omap list_omap actReq] in Hr.
      split; [done|]. split; [|split; [done|]].
      + done.
      + exists call0. left. exists (scallActs call0). by rewrite app_nil_r.
    - rewrite H0 in *. pose proof (sacts_inv _ _ _ Ha) as Hn0. cbn in Hn0. subst.
      eexists. split; [done|]. unfold todo in *. cbn [scActs scCalls scReg ssLog] in *. rewrite H0 in Hr. cbn [app omap list_omap actReq] in Hr.
      split; [done|]. split; [|split; [done|]].
      + done.
      + exists call0. by right; left.
    - exists c0. split; [done|]. cbn [ssLog]. rewrite requests_snoc, app_nil_r, nreqs_snoc. split; [done|].
      rewrite nsents_snoc, nstored_snoc. cbn [isReq isStored]. rewrite !Z.add_0_r. split; [done|]. split; [destruct (scActs c0) as [|[]]; done || lia|]. eauto.
    - exists c0. split; [done|]. cbn [ssLog]. rewrite requests_snoc, app_nil_r, nreqs_snoc. split; [done|].
      rewrite nsents_snoc, nstored_snoc. cbn [isReq isStored]. rewrite !Z.add_0_r. split; [done|]. split; [destruct (scActs c0) as [|[]]; done || lia|]. eauto.
    - exists c0. split; [done|]. cbn [ssLog]. rewrite requests_snoc, app_nil_r, nreqs_snoc. split; [done|].
      rewrite nsents_snoc, nstored_snoc. cbn [isReq isStored]. rewrite !Z.add_0_r. split; [done|]. split; [destruct (scActs c0) as [|[]]; done || lia|]. eauto.
  Qed.
  Lemma one_start cs : one cs (storeStart n [cs]).
  Proof.
    eexists. split; [done|]. unfold todo. cbn [scActs scCalls scReg ssLog storeStart]. cbn [app]. rewrite todo_calls.
    split; [done|]. split; [done|]. split; [done|]. exists SFlush. left. exists (scallActs SFlush). by rewrite app_nil_r.
  Qed.
  Lemma one_reach cs s : store_reach accepts encode murmur n [cs] s → one cs s.
  Proof.
    intros H. unfold store_reach in H. revert s H. apply (rtc_ind_r (R := step) (one cs) (storeStart n [cs])); [apply one_start|].
    intros y z _ Hs%step_i. by apply one_step.
  Qed.
End Run.
