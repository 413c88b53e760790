(** What is written is read back (C108). *)
From Verif Require Import SpecWire ProofWire ProofWireOut ProofWireIn.

Lemma stringOf_bytesOf s : stringOf (bytesOf s) = s.
Proof. induction s as [|a s IH]; [done|]. simpl. rewrite IH, N2Z.id, Ascii.ascii_N_embedding. done. Qed.
Lemma int32_back v : fits32 v → int32 (v `mod` 2^64) = v.
Proof.
  unfold fits32, int32. intros H. rewrite <- Zplus_mod_idemp_l.
  replace ((v `mod` 2^64) `mod` 2^32) with (v `mod` 2^32).
  - rewrite Zplus_mod_idemp_l, Z.mod_small; lia.
  - change (2^64) with (2^32 * 2^32). rewrite Z.rem_mul_r by lia.
    rewrite Z.mul_comm, Z.mod_add, Z.mod_mod by lia. done.
Qed.
Lemma int64_back v : fits64 v → int64 (v `mod` 2^64) = v.
Proof. unfold fits64, int64. intros H. rewrite Zplus_mod_idemp_l, Z.mod_small; lia. Qed.

Section Again.
  Context {M : Type} (known : list Z) (takes : fieldT → M → M → Prop) (keep : bytes → M → M).
  Notation rds := (reads known takes keep).
  Lemma reads_app m b1 m1 b2 m2 : rds m b1 m1 → rds m1 b2 m2 → rds m (b1 ++ b2) m2.
  Proof.
    induction 1 as [m|f m m' b m3 Hf Ht Hr IH|f m b m3 Hf Hk Hr IH]; intros H2; [done|..]; rewrite <- app_assoc.
    - eapply reads_field; [done..|]. by apply IH.
    - eapply reads_other; [done..|]. by apply IH.
  Qed.
  Lemma reads_one f m m1 : proper f → takes f m m1 → rds m (record f) m1.
  Proof. intros Hf Ht. rewrite <- (app_nil_r (record f)). eapply reads_field; [done..|]. apply reads_end. Qed.
  Lemma back_raw n b (set : bytes → M) : 1 <= n < 2^29 → (∀ b, takes (n, Len b) (set []) (set b)) → rds (set []) (wire (raw n b)) (set b).
  Proof.
    intros Hn H. unfold raw. destruct (decide (b = [])) as [->|]; [apply reads_end|]. rewrite wire_one. by apply reads_one.
  Qed.
  Lemma back_str n s (set : string → M) : 1 <= n < 2^29 → (∀ b, takes (n, Len b) (set "") (set (stringOf b))) → rds (set "") (wire (str n s)) (set s).
  Proof.
    intros Hn H. unfold str, raw. destruct (decide (bytesOf s = [])) as [E|].
    - apply bytesOf_nil in E as ->. apply reads_end.
    - rewrite wire_one. pose proof (H (bytesOf s)) as Hs. rewrite stringOf_bytesOf in Hs. by apply reads_one.
  Qed.
  Lemma back_num n trunc v (set : Z → M) : 1 <= n < 2^29 → trunc (v `mod` 2^64) = v →
    (∀ x, takes (n, Num x) (set 0) (set (trunc x))) → rds (set 0) (wire (num n v)) (set v).
  Proof.
    intros Hn Hv H. unfold num. destruct (decide (v = 0)) as [->|]; [apply reads_end|].
    rewrite wire_one. pose proof (H (v `mod` 2^64)) as Hs. rewrite Hv in Hs. apply reads_one; [|done].
    split; [done|]. simpl. apply Z.mod_pos_bound. lia.
  Qed.
  Lemma back_flag n b (set : bool → M) : 1 <= n < 2^29 →
    (∀ x, takes (n, Num x) (set false) (set (bool_decide (x ≠ 0)))) → rds (set false) (wire (flag n b)) (set b).
  Proof.
    intros Hn H. unfold flag. destruct b; [|apply reads_end]. rewrite wire_one. apply reads_one; [|apply (H 1)]. split; [done|]. simpl. lia.
  Qed.
  Lemma back_each {A} n (e : A → bytes) l (set : list A → M) : 1 <= n < 2^29 →
    (∀ x ls, x ∈ l → takes (n, Len (e x)) (set ls) (set (ls ++ [x]))) →
    ∀ ls, rds (set ls) (wire (map (λ x, (n, Len (e x))) l)) (set (ls ++ l)).
  Proof.
    intros Hn H. induction l as [|x l IH]; intros ls; simpl.
    - rewrite app_nil_r. apply reads_end.
    - rewrite wire_cons. eapply reads_field; [done|apply H; left|].
      replace (ls ++ x :: l) with ((ls ++ [x]) ++ l) by (by rewrite <- app_assoc).
      apply IH. intros y ks Hy. apply H. by right.
  Qed.
  Lemma back_strs n l (set : list string → M) : 1 <= n < 2^29 →
    (∀ b ls, takes (n, Len b) (set ls) (set (ls ++ [stringOf b]))) → rds (set []) (wire (strs n l)) (set l).
  Proof.
    intros Hn H. apply (back_each n bytesOf l set Hn); [|..]. intros s ls _.
    pose proof (H (bytesOf s) ls) as Hs. by rewrite stringOf_bytesOf in Hs.
  Qed.
  Lemma back_msgs {A} n (e : A → bytes) l (set : list A → M) : 1 <= n < 2^29 →
    (∀ x ls, x ∈ l → takes (n, Len (e x)) (set ls) (set (ls ++ [x]))) → rds (set []) (wire (msgs n (map e l))) (set l).
  Proof. intros Hn H. unfold msgs. rewrite map_map. by apply (back_each n e l set Hn). Qed.
  Lemma back_msg {A} n (e : A → bytes) o (set : option A → M) : 1 <= n < 2^29 →
    (∀ x, o = Some x → takes (n, Len (e x)) (set None) (set (Some x))) → rds (set None) (wire (msg n (e <$> o))) (set o).
  Proof.
    intros Hn H. destruct o as [x|]; simpl; [|apply reads_end]. rewrite wire_one. apply reads_one; [done|]. by apply H.
  Qed.
  Lemma back_rest r (set : bytes → M) : unknown known r → (∀ b r0, keep b (set r0) = set (r0 ++ b)) →
    rds (set []) r (set r).
  Proof.
    intros (fs & Hfs & ->) H. change (wire fs) with ([] ++ wire fs) at 2. generalize (@nil Z) as r0.
    induction Hfs as [|f fs [Hf Hk] Hfs IH]; intros r0.
    - simpl. rewrite wire_nil, app_nil_r. apply reads_end.
    - rewrite wire_cons. apply reads_other; [done..|]. rewrite H, app_assoc. apply IH.
  Qed.
End Again.

Ltac nrange := lia.
Lemma heart_back m : heart_ok m → heart_reads zeroHeart (heart_wire m) m.
Proof.
  destruct m as [v re]. intros [H1 H2]. simpl in *. unfold heart_reads, heart_wire, zeroHeart. simpl.
  eapply reads_app.
  - apply (back_num _ _ _ 1 int32 v (λ x, mkWHeart x [])); [lia|by apply int32_back|constructor].
  - by apply (back_rest _ _ _ re (λ x, mkWHeart v x)).
Qed.
Lemma reply_back m : reply_ok m → reply_reads zeroReply (reply_wire m) m.
Proof.
  destruct m as [v re]. intros [H1 H2]. simpl in *. unfold reply_reads, reply_wire, zeroReply. simpl.
  eapply reads_app.
  - apply (back_num _ _ _ 1 int32 v (λ x, mkWReply x [])); [lia|by apply int32_back|constructor].
  - by apply (back_rest _ _ _ re (λ x, mkWReply v x)).
Qed.
Lemma del_back m : del_ok m → del_reads zeroDel (del_wire m) m.
Proof.
  destruct m as [s re]. unfold del_ok, del_reads, del_wire, zeroDel. intros H. simpl in *.
  eapply reads_app.
  - apply (back_str _ _ _ 1 s (λ x, mkWDel x [])); [lia|constructor].
  - by apply (back_rest _ _ _ re (λ x, mkWDel s x)).
Qed.
Lemma map_int32_back ls : Forall fits32 ls → map int32 (map (λ v, v `mod` 2^64) ls) = ls.
Proof. induction 1 as [|v ls Hv Hls IH]; [done|]. simpl map. rewrite IH. by rewrite int32_back. Qed.
Lemma tok_back m : tok_ok m → tok_reads zeroTok (tok_wire m) m.
Proof.
  destruct m as [s ls re]. intros [H1 H2]. simpl in *. unfold tok_reads, tok_wire, zeroTok. simpl.
  rewrite wire_app, <- app_assoc. eapply reads_app.
  { apply (back_str _ _ _ 1 s (λ x, mkWTok x [] [])); [lia|constructor]. }
  eapply reads_app; [|by apply (back_rest _ _ _ re (λ x, mkWTok s ls x))].
  rewrite <- (map_map (λ v, v `mod` 2^64) varint).
  assert (Hr : Forall (λ v, 0 <= v < 2^64) (map (λ v, v `mod` 2^64) ls)).
  { apply Forall_map, Forall_true. intros v. simpl. apply Z.mod_pos_bound. lia. }
  pose proof (tok_locs _ s [] [] Hr) as Ht. rewrite map_int32_back in Ht by done.
  unfold raw. destruct (decide _) as [E|E].
  - assert (ls = []) as ->; [|apply reads_end]. destruct ls as [|v ls]; [done|]. simpl in E.
    pose proof (varint_len (v `mod` 2^64)) as Hv. apply app_eq_nil in E as [E _]. rewrite E in Hv. change (zlen (@nil Z)) with 0 in Hv. lia.
  - rewrite wire_one. apply reads_one; [split; simpl; [lia|done]|exact Ht].
Qed.
Lemma doc_back m : doc_ok m → doc_reads zeroDoc (doc_wire m) m.
Proof.
  destruct m as [id ct at_ tk lb fi fo re]. intros [H1 H2]. simpl in *. unfold doc_reads, doc_wire, zeroDoc. simpl.
  rewrite !wire_app, <- !app_assoc.
  eapply reads_app; [apply (back_str _ _ _ 1 id (λ x, mkWDoc x "" [] [] [] [] false [])); [lia|constructor]|].
  eapply reads_app; [apply (back_str _ _ _ 2 ct (λ x, mkWDoc id x [] [] [] [] false [])); [lia|constructor]|].
  eapply reads_app; [apply (back_raw _ _ _ 3 at_ (λ x, mkWDoc id ct x [] [] [] false [])); [lia|constructor]|].
  eapply reads_app.
  { apply (back_msgs _ _ _ 4 tok_wire tk (λ x, mkWDoc id ct at_ x [] [] false [])); [lia|].
    intros t ls Ht. constructor. apply tok_back. by eapply Forall_forall in H1. }
  eapply reads_app; [apply (back_strs _ _ _ 5 lb (λ x, mkWDoc id ct at_ tk x [] false [])); [lia|constructor]|].
  eapply reads_app; [apply (back_raw _ _ _ 6 fi (λ x, mkWDoc id ct at_ tk lb x false [])); [lia|constructor]|].
  eapply reads_app; [apply (back_flag _ _ _ 7 fo (λ x, mkWDoc id ct at_ tk lb fi x [])); [lia|constructor]|].
  by apply (back_rest _ _ _ re (λ x, mkWDoc id ct at_ tk lb fi fo x)).
Qed.
Lemma expr_back m : expr_ok m → expr_reads zeroExpr (expr_wire m) m.
Proof.
  destruct m as [mu sh no re]. unfold expr_ok, expr_reads, expr_wire, zeroExpr. intros H. simpl in *.
  rewrite !wire_app, <- !app_assoc.
  eapply reads_app; [apply (back_strs _ _ _ 1 mu (λ x, mkWExpr x [] [] [])); [lia|constructor]|].
  eapply reads_app; [apply (back_strs _ _ _ 2 sh (λ x, mkWExpr mu x [] [])); [lia|constructor]|].
  eapply reads_app; [apply (back_strs _ _ _ 3 no (λ x, mkWExpr mu sh x [])); [lia|constructor]|].
  by apply (back_rest _ _ _ re (λ x, mkWExpr mu sh no x)).
Qed.
Lemma logic_back m : logic_ok m → logic_reads zeroLogic (logic_wire m) m.
Proof.
  destruct m as [mu sh no ex re]. intros [H1 H2]. simpl in *. unfold logic_reads, logic_wire, zeroLogic. simpl.
  rewrite !wire_app, <- !app_assoc.
  eapply reads_app; [apply (back_flag _ _ _ 1 mu (λ x, mkWLogic x false false None [])); [lia|constructor]|].
  eapply reads_app; [apply (back_flag _ _ _ 2 sh (λ x, mkWLogic mu x false None [])); [lia|constructor]|].
  eapply reads_app; [apply (back_flag _ _ _ 3 no (λ x, mkWLogic mu sh x None [])); [lia|constructor]|].
  eapply reads_app.
  { apply (back_msg _ _ _ 4 expr_wire ex (λ x, mkWLogic mu sh no x [])); [lia|].
    intros e He. constructor. apply expr_back. by apply H1. }
  by apply (back_rest _ _ _ re (λ x, mkWLogic mu sh no ex x)).
Qed.
Lemma attri_back m : attri_ok m → attri_reads zeroAttri (attri_wire m) m.
Proof.
  destruct m as [ti au tm ts re]. intros [H1 H2]. simpl in *. unfold attri_reads, attri_wire, zeroAttri. simpl.
  rewrite !wire_app, <- !app_assoc.
  eapply reads_app; [apply (back_str _ _ _ 1 ti (λ x, mkWAttri x "" "" 0 [])); [lia|constructor]|].
  eapply reads_app; [apply (back_str _ _ _ 2 au (λ x, mkWAttri ti x "" 0 [])); [lia|constructor]|].
  eapply reads_app; [apply (back_str _ _ _ 3 tm (λ x, mkWAttri ti au x 0 [])); [lia|constructor]|].
  eapply reads_app; [apply (back_num _ _ _ 4 int64 ts (λ x, mkWAttri ti au tm x [])); [lia|by apply int64_back|constructor]|].
  by apply (back_rest _ _ _ re (λ x, mkWAttri ti au tm ts x)).
Qed.
Lemma text_back m : text_ok m → text_reads zeroText (text_wire m) m.
Proof.
  destruct m as [id ct at_ re]. intros [H1 H2]. simpl in *. unfold text_reads, text_wire, zeroText. simpl.
  rewrite !wire_app, <- !app_assoc.
  eapply reads_app; [apply (back_str _ _ _ 1 id (λ x, mkWText x "" None [])); [lia|constructor]|].
  eapply reads_app; [apply (back_str _ _ _ 2 ct (λ x, mkWText id x None [])); [lia|constructor]|].
  eapply reads_app.
  { apply (back_msg _ _ _ 3 attri_wire at_ (λ x, mkWText id ct x [])); [lia|].
    intros a Ha. constructor. apply attri_back. by apply H1. }
  by apply (back_rest _ _ _ re (λ x, mkWText id ct at_ x)).
Qed.
Lemma answer_back m : answer_ok m → answer_reads zeroAnswer (answer_wire m) m.
Proof.
  destruct m as [co le ts ds re]. intros (H1 & H2 & H3 & H4 & H5). simpl in *. unfold answer_reads, answer_wire, zeroAnswer. simpl.
  rewrite !wire_app, <- !app_assoc.
  eapply reads_app; [apply (back_num _ _ _ 1 int32 co (λ x, mkWAnswer x 0 0 [] [])); [lia|by apply int32_back|constructor]|].
  eapply reads_app; [apply (back_num _ _ _ 2 int32 le (λ x, mkWAnswer co x 0 [] [])); [lia|by apply int32_back|constructor]|].
  eapply reads_app; [apply (back_num _ _ _ 3 int64 ts (λ x, mkWAnswer co le x [] [])); [lia|by apply int64_back|constructor]|].
  eapply reads_app.
  { apply (back_msgs _ _ _ 4 text_wire ds (λ x, mkWAnswer co le ts x [])); [lia|].
    intros t ls Ht. constructor. apply text_back. by eapply Forall_forall in H4. }
  by apply (back_rest _ _ _ re (λ x, mkWAnswer co le ts ds x)).
Qed.
Lemma entry_back k v : entry_reads ("", false) (entry_wire (k, v)) (k, v).
Proof.
  unfold entry_wire. rewrite wire_cons, wire_one. simpl fst. simpl snd. unfold entry_reads.
  eapply reads_field; [split; simpl; [lia|done]|constructor|]. rewrite stringOf_bytesOf.
  apply reads_one; [split; simpl; [lia|by destruct v]|]. destruct v; [apply (entry_value 1)|apply (entry_value 0)].
Qed.
Lemma search_back es m : es ≡ₚ map_to_list (wsDocIds m) → search_ok m → search_reads zeroSearch (search_wire es m) m.
Proof.
  destruct m as [id qu of_ mx ti ds lo re]. intros Hes (H1 & H2 & H3 & H4). simpl in *. unfold search_reads, search_wire, zeroSearch. simpl.
  rewrite !wire_app, <- !app_assoc.
  eapply reads_app; [apply (back_str _ _ _ 1 id (λ x, mkWSearch x "" 0 0 "" ∅ None [])); [lia|constructor]|].
  eapply reads_app; [apply (back_str _ _ _ 2 qu (λ x, mkWSearch id x 0 0 "" ∅ None [])); [lia|constructor]|].
  eapply reads_app; [apply (back_num _ _ _ 3 int32 of_ (λ x, mkWSearch id qu x 0 "" ∅ None [])); [lia|by apply int32_back|constructor]|].
  eapply reads_app; [apply (back_num _ _ _ 4 int32 mx (λ x, mkWSearch id qu of_ x "" ∅ None [])); [lia|by apply int32_back|constructor]|].
  eapply reads_app; [apply (back_str _ _ _ 5 ti (λ x, mkWSearch id qu of_ mx x ∅ None [])); [lia|constructor]|].
  eapply reads_app.
  { pose proof (back_msgs [1; 2; 3; 4; 5; 6; 7] search_takes
      (λ b m, mkWSearch (wsId m) (wsQuery m) (wsOffset m) (wsMax m) (wsTime m) (wsDocIds m) (wsLogic m) (wsRest m ++ b))
      6 entry_wire es (λ x, mkWSearch id qu of_ mx ti (list_to_map (reverse x)) None [])) as Hm.
    apply Hm; [lia|]. intros [k v] ls _. rewrite reverse_app. simpl. constructor. apply entry_back. }
  assert (list_to_map (reverse es) = ds) as ->.
  { rewrite <- (list_to_map_to_list ds). apply list_to_map_proper; [|by rewrite reverse_Permutation].
    rewrite reverse_Permutation, Hes. apply NoDup_fst_map_to_list. }
  eapply reads_app.
  { apply (back_msg _ _ _ 7 logic_wire lo (λ x, mkWSearch id qu of_ mx ti ds x [])); [lia|].
    intros g Hg. constructor. apply logic_back. by apply H3. }
  by apply (back_rest _ _ _ re (λ x, mkWSearch id qu of_ mx ti ds lo x)).
Qed.
