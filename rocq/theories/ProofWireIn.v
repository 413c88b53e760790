(** What Unmarshal reads (C108). *)
From Verif Require Import SpecWire ProofWire ProofWireOut.

Lemma u64_0 : u64 0 = 0. Proof. done. Qed.
Lemma int64_0 : int64 0 = 0. Proof. done. Qed.
Lemma int32_0 : int32 0 = 0. Proof. done. Qed.

(** * Readers *)
Lemma readBytes_ok trunc b pre post :
  trunc = u64 ∨ trunc = int64 → zlen (pre ++ (varint (zlen b) ++ b) ++ post) < 2^62 →
  readBytes trunc (pre ++ (varint (zlen b) ++ b) ++ post) (zlen pre) = Got b (zlen pre + zlen (varint (zlen b) ++ b)).
Proof.
  intros Ht Hs. rewrite !zlen_app in *. pose proof (zlen_nonneg b). pose proof (zlen_nonneg pre). pose proof (zlen_nonneg post).
  pose proof (varint_len (zlen b)). unfold readBytes. rewrite <- app_assoc.
  assert (readNum trunc (pre ++ varint (zlen b) ++ b ++ post) (zlen pre) = Got (zlen b) (zlen pre + zlen (varint (zlen b)))) as ->.
  { destruct Ht as [-> | ->].
    - rewrite readNum_varint; [|apply cuts_u64|done|lia]. by rewrite u64_id by lia.
    - rewrite readNum_varint; [|apply cuts_int64|done|lia]. by rewrite int64_id by lia. }
  rewrite int64_id by lia. rewrite (proj2 (Z.ltb_ge _ _)) by lia. rewrite int64_id by lia.
  rewrite (proj2 (Z.ltb_ge _ _)) by (rewrite !zlen_app; lia).
  rewrite (app_assoc pre). rewrite zslice_mid; [|by rewrite zlen_app|by rewrite zlen_app]. f_equal. lia.
Qed.

Lemma tag_type n t : 0 <= t < 8 → Z.land (8 * n + t) 7 = t.
Proof.
  intros H. change 7 with (Z.ones 3). rewrite Z.land_ones by lia. change (2^3) with 8.
  rewrite Z.add_comm, Z.mul_comm, Z.mod_add by lia. apply Z.mod_small. lia.
Qed.
Lemma tag_num n t : 0 <= t < 8 → Z.shiftr (8 * n + t) 3 = n.
Proof.
  intros H. rewrite Z.shiftr_div_pow2 by lia. change (2^3) with 8.
  rewrite Z.add_comm, Z.mul_comm, Z.div_add by lia. rewrite Z.div_small by lia. lia.
Qed.
Lemma wtype_range p : 0 <= wtype p < 8.
Proof. destruct p; simpl; lia. Qed.
Lemma wtype_4 p : wtype p ≠ 4.
Proof. by destruct p. Qed.
(** the tag of a field *)
Lemma read_tag f pre post : proper f →
  readNum u64 (pre ++ record f ++ post) (zlen pre) = Got (8 * f.1 + wtype f.2) (zlen pre + zlen (varint (8 * f.1 + wtype f.2))).
Proof.
  intros [Hn _]. pose proof (wtype_range f.2). unfold record. rewrite <- app_assoc.
  rewrite readNum_varint; [|apply cuts_u64|done|lia]. by rewrite u64_id by lia.
Qed.
Lemma record_split f post : record f ++ post = varint (8 * f.1 + wtype f.2) ++ body f.2 ++ post.
Proof. unfold record. by rewrite <- app_assoc. Qed.

Lemma skipDoc_ok f post : proper f → zlen (record f ++ post) < 2^62 → skipDoc (record f ++ post) = Got () (zlen (record f)).
Proof.
  intros Hf Hs. pose proof Hf as [Hn Hp]. unfold skipDoc. cbn [skipD].
  pose proof (varint_len (8 * f.1 + wtype f.2)) as Hv. pose proof (zlen_nonneg (body f.2)). pose proof (zlen_nonneg post).
  assert (Hz : zlen (record f) = zlen (varint (8 * f.1 + wtype f.2)) + zlen (body f.2)) by (unfold record; apply zlen_app).
  rewrite zlen_app in Hs.
  rewrite (proj2 (Z.ltb_lt _ _)) by (rewrite zlen_app; lia).
  pose proof (read_tag f [] post Hf) as Ht. change (zlen (@nil Z)) with 0 in Ht. simpl app in Ht. rewrite Ht. clear Ht.
  rewrite Z.add_0_l, tag_type by apply wtype_range. rewrite Hz. rewrite record_split.
  set (tg := varint (8 * f.1 + wtype f.2)) in *. destruct f as [n p]; simpl fst in *; simpl snd in *. destruct p as [v|b|b|b]; simpl wtype; cbn [Z.eqb Pos.eqb].
  - simpl body. rewrite readNum_varint; [done|apply cuts_u64|done|done].
  - simpl body in *. pose proof (zlen_nonneg b). rewrite zlen_app in *. pose proof (varint_len (zlen b)). rewrite <- app_assoc.
    rewrite readNum_varint; [|apply cuts_int64|done|lia].
    rewrite int64_id by lia. rewrite (proj2 (Z.ltb_ge _ _)) by lia.
    rewrite int64_id by lia. f_equal. lia.
  - simpl body in *. rewrite int64_id by lia. by rewrite Hp.
  - simpl body in *. rewrite int64_id by lia. by rewrite Hp.
Qed.

(** * The loop over the fields *)
Section Loop.
  Context {M : Type} (known : list Z) (takes : fieldT → M → M → Prop) (keep : bytes → M → M).
  Context (field : Z → Z → bytes → Z → M → option (rd M)).
  Context (Hfield : ∀ f m m' pre post, proper f → takes f m m' → zlen (pre ++ body f.2 ++ post) < 2^62 →
    field f.1 (wtype f.2) (pre ++ body f.2 ++ post) (zlen pre) m = Some (Got m' (zlen pre + zlen (body f.2)))).
  Context (Hother : ∀ n wt data i m, n ∉ known → field n wt data i m = None).
  Lemma fields_ok m b m' : reads known takes keep m b m' →
    ∀ pre k, (length b < k)%nat → zlen (pre ++ b) < 2^62 → fields field keep k (pre ++ b) (zlen pre) m = UOk m'.
  Proof.
    induction 1 as [m|f m m1 b m2 Hf Ht Hr IH|f m b m2 Hf Hk Hr IH]; intros pre k Hl Hs;
      (destruct k as [|k]; [lia|]); cbn [fields].
    - rewrite app_nil_r. rewrite Z.ltb_irrefl. done.
    - pose proof (varint_len (8 * f.1 + wtype f.2)) as Hv. pose proof (zlen_nonneg (body f.2)). pose proof (zlen_nonneg b).
      assert (Hz : zlen (record f) = zlen (varint (8 * f.1 + wtype f.2)) + zlen (body f.2)) by (unfold record; apply zlen_app).
      pose proof Hf as [Hn _].
      rewrite (proj2 (Z.ltb_lt _ _)) by (rewrite !zlen_app; lia).
      rewrite read_tag by done. rewrite tag_type, tag_num by apply wtype_range.
      rewrite (proj2 (Z.eqb_neq _ _)) by apply wtype_4. rewrite int32_id by lia.
      rewrite (proj2 (Z.leb_gt _ _)) by lia.
      pose proof (Hfield f m m1 (pre ++ varint (8 * f.1 + wtype f.2)) b Hf Ht) as E.
      rewrite <- (app_assoc pre), <- record_split in E. rewrite (zlen_app pre (varint _)) in E. rewrite E by done. clear E.
      specialize (IH (pre ++ record f) k). rewrite <- app_assoc in IH. rewrite (zlen_app pre (record f)), Hz in IH.
      rewrite <- Z.add_assoc. apply IH; [|done]. rewrite app_length in Hl. unfold zlen in *. lia.
    - pose proof (varint_len (8 * f.1 + wtype f.2)) as Hv. pose proof (zlen_nonneg (body f.2)). pose proof (zlen_nonneg b).
      assert (Hz : zlen (record f) = zlen (varint (8 * f.1 + wtype f.2)) + zlen (body f.2)) by (unfold record; apply zlen_app).
      pose proof Hf as [Hn _]. pose proof (zlen_nonneg pre).
      rewrite (proj2 (Z.ltb_lt _ _)) by (rewrite !zlen_app; lia).
      rewrite read_tag by done. rewrite tag_type, tag_num by apply wtype_range.
      rewrite (proj2 (Z.eqb_neq _ _)) by apply wtype_4. rewrite int32_id by lia.
      rewrite (proj2 (Z.leb_gt _ _)) by lia. rewrite Hother by done.
      rewrite zslice_tail by done. rewrite skipDoc_ok by (try done; rewrite !zlen_app in *; lia).
      rewrite (proj2 (Z.ltb_ge _ _)) by lia.
      rewrite !zlen_app in Hs. rewrite int64_id by lia. rewrite (proj2 (Z.ltb_ge _ _)) by (rewrite !zlen_app; lia).
      rewrite zslice_mid by done.
      specialize (IH (pre ++ record f) k). rewrite <- app_assoc in IH. rewrite (zlen_app pre (record f)) in IH.
      apply IH; [|rewrite !zlen_app; lia]. rewrite app_length in Hl. unfold zlen in *. lia.
  Qed.
  Lemma unmarshal_ok m b m' : reads known takes keep m b m' → zlen b < 2^62 → unmarshal field keep m b = UOk m'.
  Proof. intros H Hs. apply (fields_ok m b m' H []); [lia|done]. Qed.
End Loop.

(** * The kinds of fields *)
Section Kinds.
  Context {M : Type} (m : M) (pre post : bytes).
  Lemma strCase_ok b (set : string → M) : zlen (pre ++ body (Len b) ++ post) < 2^62 →
    strCase (pre ++ body (Len b) ++ post) 2 (zlen pre) m set = Got (set (stringOf b)) (zlen pre + zlen (body (Len b))).
  Proof. intros H. unfold strCase. simpl body in *. rewrite readBytes_ok by auto. done. Qed.
  Lemma bytesCase_ok b (set : bytes → M) : zlen (pre ++ body (Len b) ++ post) < 2^62 →
    bytesCase (pre ++ body (Len b) ++ post) 2 (zlen pre) m set = Got (set b) (zlen pre + zlen (body (Len b))).
  Proof. intros H. unfold bytesCase. simpl body in *. rewrite readBytes_ok by auto. done. Qed.
  Lemma numCase_ok trunc v (set : Z → M) : trunc = int32 ∨ trunc = int64 → 0 <= v < 2^64 →
    numCase (pre ++ body (Num v) ++ post) 0 (zlen pre) m trunc set = Got (set (trunc v)) (zlen pre + zlen (body (Num v))).
  Proof.
    intros Ht Hv. unfold numCase. simpl body. destruct Ht as [-> | ->].
    - rewrite readNum_varint; [done|apply cuts_int32|done|done].
    - rewrite readNum_varint; [done|apply cuts_int64|done|done].
  Qed.
  Lemma int64_zero v : 0 <= v < 2^64 → negb (int64 v =? 0) = bool_decide (v ≠ 0).
  Proof.
    intros Hv. destruct (decide (v = 0)) as [->|Hne]; [done|].
    rewrite bool_decide_eq_true_2 by done. rewrite (proj2 (Z.eqb_neq _ _)); [done|]. intros H.
    unfold int64 in H. destruct (decide (v < 2^63)).
    - rewrite Z.mod_small in H by lia. lia.
    - rewrite <- (Z.mod_unique (v + 2^63) (2^64) 1 (v - 2^63)) in H by lia. lia.
  Qed.
  Lemma flagCase_ok v (set : bool → M) : 0 <= v < 2^64 →
    flagCase (pre ++ body (Num v) ++ post) 0 (zlen pre) m set = Got (set (bool_decide (v ≠ 0))) (zlen pre + zlen (body (Num v))).
  Proof.
    intros Hv. unfold flagCase. simpl body. rewrite readNum_varint; [|apply cuts_int64|done|done].
    simpl. by rewrite int64_zero.
  Qed.
  Lemma msgCase_ok {N} (dec : N → bytes → um N) from x b (set : N → M) : zlen (pre ++ body (Len b) ++ post) < 2^62 →
    dec from b = UOk x →
    msgCase (pre ++ body (Len b) ++ post) 2 (zlen pre) m dec from set = Got (set x) (zlen pre + zlen (body (Len b))).
  Proof. intros H Hd. unfold msgCase. simpl body in *. rewrite readBytes_ok by auto. simpl. by rewrite Hd. Qed.
End Kinds.
Lemma body_len pre b post : zlen (pre ++ body (Len b) ++ post) < 2^62 → zlen b < 2^62.
Proof.
  simpl body. rewrite !zlen_app. pose proof (zlen_nonneg pre). pose proof (zlen_nonneg post).
  pose proof (zlen_nonneg (varint (zlen b))). lia.
Qed.
Ltac unhead := lazymatch goal with |- ?g _ _ _ _ _ = _ => unfold g end.
Ltac other H :=
  intros n wt data i m0 H; rewrite !not_elem_of_cons in H; unfold not in H; destruct_and?;
  destruct m0; unhead; simpl; repeat (rewrite (proj2 (Z.eqb_neq _ _)) by tauto); done.
Ltac kind := intros f m0 m0' pre post [Hn Hp] Ht Hs; inversion Ht; subst; simpl fst in *; simpl snd in *; simpl wtype in *; simpl in Hp, Hs; unhead; cbn [Z.eqb Pos.eqb]; f_equal.

Lemma heart_unmarshal m b m' : heart_reads m b m' → short b → Heart_Unmarshal m b = UOk m'.
Proof.
  intros H. apply (unmarshal_ok [1] heart_takes); [| |done].
  - kind. apply (numCase_ok (mkWHeart x re) pre post int32 v (λ v, mkWHeart v re)); auto.
  - other H1.
Qed.
Lemma reply_unmarshal m b m' : reply_reads m b m' → short b → Reply_Unmarshal m b = UOk m'.
Proof.
  intros H. apply (unmarshal_ok [1] reply_takes); [| |done].
  - kind. apply (numCase_ok (mkWReply x re) pre post int32 v (λ v, mkWReply v re)); auto.
  - other H1.
Qed.
Lemma del_unmarshal m b m' : del_reads m b m' → short b → Del_Unmarshal m b = UOk m'.
Proof.
  intros H. apply (unmarshal_ok [1] del_takes); [| |done].
  - kind. apply (strCase_ok (mkWDel x re) pre post b0 (λ v, mkWDel v re)); auto.
  - other H1.
Qed.
Lemma packed_ok vs : Forall (λ v, 0 <= v < 2^64) vs →
  ∀ pre post fuel ls, (length (concat (map varint vs)) < fuel)%nat →
  packed fuel (pre ++ concat (map varint vs) ++ post) (zlen pre + zlen (concat (map varint vs))) (zlen pre) ls =
  Got (ls ++ map int32 vs) (zlen pre + zlen (concat (map varint vs))).
Proof.
  induction 1 as [|v vs Hv Hvs IH]; intros pre post fuel ls Hf; (destruct fuel as [|fuel]; [lia|]); cbn [packed].
  - simpl concat. change (zlen (@nil Z)) with 0. rewrite Z.add_0_r, Z.ltb_irrefl. simpl. by rewrite app_nil_r.
  - simpl concat. simpl map. rewrite zlen_app. pose proof (varint_len v). pose proof (zlen_nonneg (concat (map varint vs))).
    rewrite (proj2 (Z.ltb_lt _ _)) by lia. rewrite <- app_assoc.
    rewrite readNum_varint; [|apply cuts_int32|done|done].
    specialize (IH (pre ++ varint v) post fuel (ls ++ [int32 v])). rewrite <- !app_assoc in IH. rewrite (zlen_app pre (varint v)) in IH.
    rewrite Z.add_assoc. rewrite IH; [done|]. simpl in Hf. rewrite app_length in Hf. unfold zlen in *. lia.
Qed.
Lemma tok_unmarshal m b m' : tok_reads m b m' → short b → Tok_Unmarshal m b = UOk m'.
Proof.
  intros H. apply (unmarshal_ok [1; 2] tok_takes); [| |done].
  - kind.
    + apply (strCase_ok (mkWTok x ls re) pre post b0 (λ v, mkWTok v ls re)); auto.
    + simpl body. rewrite readNum_varint; [done|apply cuts_int32|done|done].
    + simpl body. set (pk := concat (map varint vs)) in *. rewrite !zlen_app in Hs.
      pose proof (zlen_nonneg pk). pose proof (zlen_nonneg pre). pose proof (zlen_nonneg post). pose proof (varint_len (zlen pk)).
      rewrite <- app_assoc. rewrite readNum_varint; [|apply cuts_int64|done|lia].
      rewrite int64_id by lia. rewrite (proj2 (Z.ltb_ge _ _)) by lia. rewrite int64_id by lia.
      rewrite (proj2 (Z.ltb_ge _ _)) by (rewrite !zlen_app; lia).
      rewrite (app_assoc pre). rewrite <- (zlen_app pre). unfold pk at 2 4.
      rewrite packed_ok; [|done|rewrite !app_length; fold pk; lia].
      f_equal. rewrite !zlen_app. fold pk. lia.
  - other H1.
Qed.
Lemma doc_unmarshal m b m' : doc_reads m b m' → short b → Doc_Unmarshal m b = UOk m'.
Proof.
  intros H. apply (unmarshal_ok [1; 2; 3; 4; 5; 6; 7] doc_takes); [| |done].
  - kind.
    + apply (strCase_ok (mkWDoc x ct at_ tk lb fi fo re) pre post b0 (λ s, mkWDoc s ct at_ tk lb fi fo re)); auto.
    + apply (strCase_ok (mkWDoc id x at_ tk lb fi fo re) pre post b0 (λ s, mkWDoc id s at_ tk lb fi fo re)); auto.
    + apply (bytesCase_ok (mkWDoc id ct x tk lb fi fo re) pre post b0 (λ s, mkWDoc id ct s tk lb fi fo re)); auto.
    + apply (msgCase_ok (mkWDoc id ct at_ tk lb fi fo re) pre post Tok_Unmarshal zeroTok t b0 (λ t, mkWDoc id ct at_ (tk ++ [t]) lb fi fo re)); [done|].
      apply tok_unmarshal; [done|]. by apply (body_len pre b0 post).
    + apply (strCase_ok (mkWDoc id ct at_ tk lb fi fo re) pre post b0 (λ s, mkWDoc id ct at_ tk (lb ++ [s]) fi fo re)); auto.
    + apply (bytesCase_ok (mkWDoc id ct at_ tk lb x fo re) pre post b0 (λ s, mkWDoc id ct at_ tk lb s fo re)); auto.
    + apply (flagCase_ok (mkWDoc id ct at_ tk lb fi x re) pre post v (λ s, mkWDoc id ct at_ tk lb fi s re)); auto.
  - other H1.
Qed.
Lemma expr_unmarshal m b m' : expr_reads m b m' → short b → Expr_Unmarshal m b = UOk m'.
Proof.
  intros H. apply (unmarshal_ok [1; 2; 3] expr_takes); [| |done].
  - kind.
    + apply (strCase_ok (mkWExpr mu sh no re) pre post b0 (λ s, mkWExpr (mu ++ [s]) sh no re)); auto.
    + apply (strCase_ok (mkWExpr mu sh no re) pre post b0 (λ s, mkWExpr mu (sh ++ [s]) no re)); auto.
    + apply (strCase_ok (mkWExpr mu sh no re) pre post b0 (λ s, mkWExpr mu sh (no ++ [s]) re)); auto.
  - other H1.
Qed.
Lemma logic_unmarshal m b m' : logic_reads m b m' → short b → Logic_Unmarshal m b = UOk m'.
Proof.
  intros H. apply (unmarshal_ok [1; 2; 3; 4] logic_takes); [| |done].
  - kind.
    + apply (flagCase_ok (mkWLogic x sh no ex re) pre post v (λ s, mkWLogic s sh no ex re)); auto.
    + apply (flagCase_ok (mkWLogic mu x no ex re) pre post v (λ s, mkWLogic mu s no ex re)); auto.
    + apply (flagCase_ok (mkWLogic mu sh x ex re) pre post v (λ s, mkWLogic mu sh s ex re)); auto.
    + apply (msgCase_ok (mkWLogic mu sh no ex re) pre post Expr_Unmarshal (default zeroExpr ex) e b0 (λ e, mkWLogic mu sh no (Some e) re)); [done|].
      apply expr_unmarshal; [done|]. by apply (body_len pre b0 post).
  - other H1.
Qed.
Lemma attri_unmarshal m b m' : attri_reads m b m' → short b → Attri_Unmarshal m b = UOk m'.
Proof.
  intros H. apply (unmarshal_ok [1; 2; 3; 4] attri_takes); [| |done].
  - kind.
    + apply (strCase_ok (mkWAttri x au tm ts re) pre post b0 (λ s, mkWAttri s au tm ts re)); auto.
    + apply (strCase_ok (mkWAttri ti x tm ts re) pre post b0 (λ s, mkWAttri ti s tm ts re)); auto.
    + apply (strCase_ok (mkWAttri ti au x ts re) pre post b0 (λ s, mkWAttri ti au s ts re)); auto.
    + apply (numCase_ok (mkWAttri ti au tm x re) pre post int64 v (λ s, mkWAttri ti au tm s re)); auto.
  - other H1.
Qed.
Lemma text_unmarshal m b m' : text_reads m b m' → short b → Text_Unmarshal m b = UOk m'.
Proof.
  intros H. apply (unmarshal_ok [1; 2; 3] text_takes); [| |done].
  - kind.
    + apply (strCase_ok (mkWText x ct at_ re) pre post b0 (λ s, mkWText s ct at_ re)); auto.
    + apply (strCase_ok (mkWText id x at_ re) pre post b0 (λ s, mkWText id s at_ re)); auto.
    + apply (msgCase_ok (mkWText id ct at_ re) pre post Attri_Unmarshal (default zeroAttri at_) a b0 (λ a, mkWText id ct (Some a) re)); [done|].
      apply attri_unmarshal; [done|]. by apply (body_len pre b0 post).
  - other H1.
Qed.
Lemma answer_unmarshal m b m' : answer_reads m b m' → short b → Answer_Unmarshal m b = UOk m'.
Proof.
  intros H. apply (unmarshal_ok [1; 2; 3; 4] answer_takes); [| |done].
  - kind.
    + apply (numCase_ok (mkWAnswer x le ts ds re) pre post int32 v (λ s, mkWAnswer s le ts ds re)); auto.
    + apply (numCase_ok (mkWAnswer co x ts ds re) pre post int32 v (λ s, mkWAnswer co s ts ds re)); auto.
    + apply (numCase_ok (mkWAnswer co le x ds re) pre post int64 v (λ s, mkWAnswer co le s ds re)); auto.
    + apply (msgCase_ok (mkWAnswer co le ts ds re) pre post Text_Unmarshal zeroText t b0 (λ t, mkWAnswer co le ts (ds ++ [t]) re)); [done|].
      apply text_unmarshal; [done|]. by apply (body_len pre b0 post).
  - other H1.
Qed.

(** map entries *)
Lemma entry_ok e b e' : entry_reads e b e' →
  ∀ pre post fuel, (length b < fuel)%nat → zlen (pre ++ b ++ post) < 2^62 →
  entry fuel (pre ++ b ++ post) (zlen pre + zlen b) (zlen pre) e.1 e.2 = Got e' (zlen pre + zlen b).
Proof.
  unfold entry_reads.
  induction 1 as [m|f m m1 b m2 Hf Ht Hr IH|f m b m2 Hf Hk Hr IH]; intros pre post fuel Hl Hs;
    (destruct fuel as [|fuel]; [lia|]); cbn [entry].
  - change (zlen (@nil Z)) with 0. rewrite Z.add_0_r, Z.ltb_irrefl. by destruct m.
  - pose proof (varint_len (8 * f.1 + wtype f.2)) as Hv. pose proof (zlen_nonneg (body f.2)). pose proof (zlen_nonneg b).
    assert (Hz : zlen (record f) = zlen (varint (8 * f.1 + wtype f.2)) + zlen (body f.2)) by (unfold record; apply zlen_app).
    pose proof Hf as [Hn Hp].
    rewrite (proj2 (Z.ltb_lt _ _)) by (rewrite !zlen_app; lia).
    specialize (IH (pre ++ record f) post fuel). rewrite <- !app_assoc in IH.
    rewrite <- app_assoc in Hs |- *. rewrite read_tag by done. rewrite tag_num by apply wtype_range. rewrite int32_id by lia.
    rewrite zlen_app. rewrite (zlen_app pre (record f)), Hz in IH. rewrite app_length in Hl.
    specialize (IH ltac:(unfold zlen in *; lia) Hs).
    rewrite Hz. replace (zlen pre + (zlen (varint (8 * f.1 + wtype f.2)) + zlen (body f.2) + zlen b))
      with (zlen pre + (zlen (varint (8 * f.1 + wtype f.2)) + zlen (body f.2)) + zlen b) by lia.
    rewrite record_split, app_assoc in *. rewrite Z.add_assoc, <- zlen_app in IH |- *.
    inversion Ht; subst; simpl fst in *; simpl snd in *; cbn [Z.eqb Pos.eqb].
    + simpl body in *. rewrite readBytes_ok by (auto; done). exact IH.
    + simpl body in *. rewrite readNum_varint; [|apply cuts_int64|done|done]. rewrite int64_zero by done. exact IH.
  - pose proof (varint_len (8 * f.1 + wtype f.2)) as Hv. pose proof (zlen_nonneg (body f.2)). pose proof (zlen_nonneg b).
    assert (Hz : zlen (record f) = zlen (varint (8 * f.1 + wtype f.2)) + zlen (body f.2)) by (unfold record; apply zlen_app).
    pose proof Hf as [Hn Hp]. pose proof (zlen_nonneg pre). pose proof (zlen_nonneg post).
    rewrite (proj2 (Z.ltb_lt _ _)) by (rewrite !zlen_app; lia).
    specialize (IH (pre ++ record f) post fuel). rewrite <- !app_assoc in IH.
    rewrite <- app_assoc in Hs |- *. rewrite read_tag by done. rewrite tag_num by apply wtype_range. rewrite int32_id by lia.
    rewrite zlen_app. rewrite (zlen_app pre (record f)) in IH. rewrite app_length in Hl.
    specialize (IH ltac:(unfold zlen in *; lia) Hs).
    rewrite !not_elem_of_cons in Hk. destruct Hk as (Hk1 & Hk2 & _).
    rewrite !(proj2 (Z.eqb_neq _ _)) by done.
    rewrite zslice_tail by done. rewrite !zlen_app in Hs. rewrite skipDoc_ok by (try done; rewrite !zlen_app; lia).
    rewrite (proj2 (Z.ltb_ge _ _)) by lia. rewrite int64_id by lia.
    rewrite (proj2 (Z.ltb_ge _ _)) by lia. rewrite Z.add_assoc. exact IH.
Qed.
Lemma search_unmarshal m b m' : search_reads m b m' → short b → Search_Unmarshal m b = UOk m'.
Proof.
  intros H. apply (unmarshal_ok [1; 2; 3; 4; 5; 6; 7] search_takes); [| |done].
  - kind.
    + apply (strCase_ok (mkWSearch x qu of_ mx ti ds lo re) pre post b0 (λ s, mkWSearch s qu of_ mx ti ds lo re)); auto.
    + apply (strCase_ok (mkWSearch id x of_ mx ti ds lo re) pre post b0 (λ s, mkWSearch id s of_ mx ti ds lo re)); auto.
    + apply (numCase_ok (mkWSearch id qu x mx ti ds lo re) pre post int32 v (λ s, mkWSearch id qu s mx ti ds lo re)); auto.
    + apply (numCase_ok (mkWSearch id qu of_ x ti ds lo re) pre post int32 v (λ s, mkWSearch id qu of_ s ti ds lo re)); auto.
    + apply (strCase_ok (mkWSearch id qu of_ mx x ds lo re) pre post b0 (λ s, mkWSearch id qu of_ mx s ds lo re)); auto.
    + simpl body. rewrite !zlen_app in Hs.
      pose proof (zlen_nonneg b0). pose proof (zlen_nonneg pre). pose proof (zlen_nonneg post). pose proof (varint_len (zlen b0)).
      rewrite <- app_assoc. rewrite readNum_varint; [|apply cuts_int64|done|lia].
      rewrite int64_id by lia. rewrite (proj2 (Z.ltb_ge _ _)) by lia. rewrite int64_id by lia.
      rewrite (proj2 (Z.ltb_ge _ _)) by (rewrite !zlen_app; lia).
      rewrite (app_assoc pre). rewrite <- (zlen_app pre).
      rewrite (entry_ok ("", false) b0 (k, v)); [|done|rewrite !app_length; lia|rewrite !zlen_app; lia].
      f_equal. rewrite !zlen_app. lia.
    + apply (msgCase_ok (mkWSearch id qu of_ mx ti ds lo re) pre post Logic_Unmarshal (default zeroLogic lo) g b0 (λ g, mkWSearch id qu of_ mx ti ds (Some g) re)); [done|].
      apply logic_unmarshal; [done|]. by apply (body_len pre b0 post).
  - other H1.
Qed.
