(** The store engines, recovery, and what a running engine leaves in the store. *)
From Verif Require Import ModelStore SpecStore SpecIndexer ProofSegment ProofTopK ProofEngine.

(** * Engines *)
Section Engines.
  Variable accepts : string → string → bool.
  Variable iter : kv → list (string * string).
  Hypothesis Hiter : valid_iter iter.
  Let Hit db : iter db ≡ₚ map_to_list db := Hiter db.

  Lemma Get_Set e k k' v db : accepts k v = true →
    Get e k' (Set_ accepts k v db).1 = if decide (k' = k) then (v, false) else Get e k' db.
  Proof.
    intros Ha. unfold Set_, Get. rewrite Ha. cbn [fst]. case_decide as E.
    - subst. by rewrite lookup_insert.
    - by rewrite lookup_insert_ne.
  Qed.
  Lemma Set_refused k v db : accepts k v = false → Set_ accepts k v db = (db, true).
  Proof. unfold Set_. by intros ->. Qed.
  Lemma Get_Delete e k k' db : Get e k' (Delete k db) = if decide (k' = k) then Get e k' ∅ else Get e k' db.
  Proof.
    unfold Delete, Get. case_decide as E.
    - subst. by rewrite lookup_delete, lookup_empty.
    - by rewrite lookup_delete_ne.
  Qed.
  Lemma Has_spec e k db :
    (Has e k db).1 = true ↔ match e with Bolt => ∃ v, db !! k = Some v ∧ v ≠ "" | _ => is_Some (db !! k) end.
  Proof.
    unfold Has, Get. destruct e.
    - cbn. by rewrite bool_decide_eq_true.
    - destruct (db !! k) as [v|] eqn:E; cbn.
      + rewrite andb_false_r. cbn. split; [by eauto|done].
      + split; [done|]. by intros [? ?].
    - destruct (db !! k) as [v|] eqn:E; cbn.
      + rewrite negb_true_iff, seqb_neq. naive_solver.
      + split; [done|]. naive_solver.
  Qed.

  Lemma forEach_fold {A} (g : A → string → string → A) l a :
    forEach (λ a k v, (g a k v, false)) l a = (foldl (λ a kv, g a kv.1 kv.2) a l, false).
  Proof. revert a. induction l as [|[k v] l IH]; intros a; [done|]. cbn. apply IH. Qed.
  Lemma forEach_stops {A} (fn : A → string → string → A * bool) l1 k v l2 a a1 a2 :
    forEach fn l1 a = (a1, false) → fn a1 k v = (a2, true) → forEach fn (l1 ++ (k, v) :: l2) a = (a2, true).
  Proof.
    revert a. induction l1 as [|[k1 v1] l1 IH]; intros a H1 H2; cbn in *.
    - injection H1 as ->. by rewrite H2.
    - destruct (fn a k1 v1) as [a' []]; [done|]. by apply IH.
  Qed.

  Variable encode : DocData → option string.
  Variable decode : string → DocData * bool.
  Definition decoded (kv : string * string) : option (string * DocData) :=
    let '(d, err) := decode kv.2 in if negb err then Some (kv.1, d) else None.

  Lemma storeInit_eq db : storeInit iter decode db = omap decoded (iter db).
  Proof.
    unfold storeInit, ForEach.
    assert (H : ∀ l acc, forEach (λ calls docId value, let '(data, err) := decode value in
       (if negb err then calls ++ [(docId, data)] else calls, false)) l acc = (acc ++ omap decoded l, false)).
    { induction l as [|[k v] l IH]; intros acc; cbn; [by rewrite app_nil_r|].
      unfold decoded at 1. cbn. destruct (decode v) as [d []]; cbn; rewrite IH; [done|]. by rewrite <-app_assoc. }
    by rewrite H.
  Qed.
  Lemma storeInit_in db id d :
    (id, d) ∈ storeInit iter decode db ↔ ∃ v, db !! id = Some v ∧ decode v = (d, false).
  Proof.
    rewrite storeInit_eq, elem_of_list_omap. split.
    - intros ([k v] & Hin & Hd). rewrite Hit in Hin. apply elem_of_map_to_list in Hin.
      unfold decoded in Hd. cbn in Hd. destruct (decode v) as [d' []] eqn:E; [done|]. cbn in Hd. injection Hd as -> ->. eauto.
    - intros (v & Hv & Hd). exists (id, v). split.
      + rewrite Hit. by apply elem_of_map_to_list.
      + unfold decoded. cbn. by rewrite Hd.
  Qed.
  Lemma storeInit_ids db : NoDup (storeInit iter decode db).*1.
  Proof.
    rewrite storeInit_eq. assert (H : NoDup (iter db).*1) by (rewrite Hit; apply NoDup_fst_map_to_list).
    induction (iter db) as [|[k v] l IH]; [constructor|]. cbn in H. apply NoDup_cons in H as [H1 H2]. cbn [omap list_omap].
    destruct (decoded (k, v)) as [[k' d]|] eqn:E; [|by apply IH]. cbn. constructor; [|by apply IH].
    unfold decoded in E. cbn in E. destruct (decode v) as [d' []]; [done|]. cbn in E. injection E as -> ->.
    intros Hin. apply H1. apply elem_of_list_fmap in Hin as ([k2 d2] & -> & Hin).
    apply elem_of_list_omap in Hin as ([k3 v3] & Hin & E3). unfold decoded in E3. cbn in E3.
    destruct (decode v3) as [d3 []]; [done|]. cbn in E3. injection E3 as -> ->.
    apply elem_of_list_fmap. by exists (k2, v3).
  Qed.

  Lemma merges_perm {A} (ls : list (list A)) cs : merges ls cs → cs ≡ₚ mjoin ls.
  Proof.
    induction 1 as [ls H|ls k x l cs Hk Hm IH].
    - induction H as [|? ? <- ? IH]; [done|]. cbn. done.
    - rewrite IH. apply elem_of_list_split_length in Hk as (l1 & l2 & -> & ->).
      rewrite insert_app_r_alt by done. rewrite Nat.sub_diag. rewrite !join_app.
      change (x :: mjoin l1 ++ l ++ mjoin l2 ≡ₚ mjoin l1 ++ x :: (l ++ mjoin l2)). apply Permutation_middle.
  Qed.
  Lemma merges_skip {A} (ls : list (list A)) cs : merges ls cs → merges ([] :: ls) cs.
  Proof.
    induction 1 as [ls H|ls k x l cs Hk Hm IH].
    - constructor. by constructor.
    - by apply (merges_take _ (S k) x l).
  Qed.
  Lemma merges_total {A} (ls : list (list A)) : merges ls (mjoin ls).
  Proof.
    induction ls as [|l ls IH]; [by constructor|]. rewrite join_cons. induction l as [|x l IHl].
    - by apply merges_skip.
    - by apply (merges_take _ 0 x l).
  Qed.

  Lemma restart_in n dbs cs id d : restart iter decode n dbs cs →
    (id, d) ∈ cs ↔ ∃ j v, 0 <= j < n ∧ dbs j !! id = Some v ∧ decode v = (d, false).
  Proof.
    intros H%merges_perm. rewrite H, elem_of_list_join. split.
    - intros (l & Hin & Hl). apply elem_of_list_fmap in Hl as (j & -> & Hj%elem_of_seqZ).
      apply storeInit_in in Hin as (v & ? & ?). exists j, v. split; [lia|done].
    - intros (j & v & Hj & Hv & Hd). exists (storeInit iter decode (dbs j)). split; [apply storeInit_in; eauto|].
      apply elem_of_list_fmap. exists j. split; [done|]. apply elem_of_seqZ. lia.
  Qed.
  Lemma restart_nodup murmur n dbs cs : restart iter decode n dbs cs → placed murmur n dbs → NoDup cs.*1.
  Proof.
    intros H%merges_perm Hp. rewrite H. clear H cs.
    assert (Hs : ∀ j, j ∈ seqZ 0 n → 0 <= j < n) by (intros j ?%elem_of_seqZ; lia).
    pose proof (NoDup_seqZ 0 n) as Hnd. induction (seqZ 0 n) as [|j js IH]; [constructor|].
    cbn. rewrite fmap_app. apply NoDup_cons in Hnd as [Hj Hnd]. apply NoDup_app. split; [apply storeInit_ids|].
    split; [|apply IH; [intros; apply Hs; by right|done]].
    intros id H1 H2. apply elem_of_list_fmap in H1 as ([id1 d1] & E1 & H1). apply storeInit_in in H1 as (v1 & H1 & _).
    apply elem_of_list_fmap in H2 as ([id2 d2] & E2 & H2). cbn in E1, E2. subst id1 id2.
    apply elem_of_list_join in H2 as (l & H2 & Hl). apply elem_of_list_fmap in Hl as (j' & -> & Hj').
    apply storeInit_in in H2 as (v2 & H2 & _). apply Hj.
    assert (storeShard murmur n id = j) as <- by (apply Hp; [apply Hs; by left|eauto]).
    assert (storeShard murmur n id = j') as -> by (apply Hp; [apply Hs; by right|eauto]). done.
  Qed.

  Lemma restart_exists n dbs : ∃ cs, restart iter decode n dbs cs.
  Proof. eexists. apply merges_total. Qed.

  Lemma GetDBAllIds_eq dbs : GetDBAllIds iter dbs = mjoin ((λ db, (iter db).*1) <$> dbs).
  Proof.
    unfold GetDBAllIds, ForEach.
    assert (H : ∀ dbs acc, foldl (λ docsId db, (forEach (λ (docsId : list string) k (v : string), (docsId ++ [k], false)) (iter db) docsId).1) acc dbs =
      acc ++ mjoin ((λ db, (iter db).*1) <$> dbs)).
    { clear. induction dbs as [|db dbs IH]; intros acc; cbn; [by rewrite app_nil_r|].
      rewrite (forEach_fold (λ docsId k v, docsId ++ [k])). cbn [fst]. rewrite IH, app_assoc. f_equal.
      generalize (iter db). intros l. revert acc. induction l as [|[k v] l IHl]; intros acc; cbn; [by rewrite app_nil_r|].
      rewrite IHl. by rewrite <-app_assoc. }
    apply H.
  Qed.
  Lemma GetDBAllDocs_eq dbs : GetDBAllDocs iter decode dbs =
    (mjoin ((λ db, (iter db).*1) <$> dbs), mjoin ((λ db, (λ kv, (decode kv.2).1) <$> iter db) <$> dbs)).
  Proof.
    unfold GetDBAllDocs, ForEach.
    assert (H : ∀ dbs a1 a2, foldl (λ acc db, (forEach (λ '(docsId, docsData) key val,
          ((docsId ++ [key], docsData ++ [(decode val).1]), false)) (iter db) acc).1) (a1, a2) dbs =
      (a1 ++ mjoin ((λ db, (iter db).*1) <$> dbs), a2 ++ mjoin ((λ db, (λ kv, (decode kv.2).1) <$> iter db) <$> dbs))).
    { clear. induction dbs as [|db dbs IH]; intros a1 a2; cbn; [by rewrite !app_nil_r|].
      assert (Hl : ∀ l b1 b2, forEach (λ '(docsId, docsData) key val,
          ((docsId ++ [key], docsData ++ [(decode val).1]), false)) l (b1, b2) =
          ((b1 ++ l.*1, b2 ++ ((λ kv, (decode kv.2).1) <$> l)), false)).
      { induction l as [|[k v] l IHl]; intros b1 b2; cbn; [by rewrite !app_nil_r|]. rewrite IHl. by rewrite <-!app_assoc. }
      rewrite Hl. cbn [fst]. rewrite IH. by rewrite <-!app_assoc. }
    apply H.
  Qed.
End Engines.
