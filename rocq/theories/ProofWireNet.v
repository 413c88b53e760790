(** The gRPC service end to end (C110). *)
From Verif Require Import SpecWireNet ProofWire ProofWireOut ProofWireIn ProofWireBack ProofWireSafe.

Lemma bytesOf_stringOf b : Forall (λ x, 0 <= x < 256) b → bytesOf (stringOf b) = b.
Proof.
  induction 1 as [|x b Hx Hb IH]; [done|]. simpl. rewrite IH. f_equal.
  rewrite Ascii.N_ascii_embedding; [apply Z2N.id; lia|]. lia.
Qed.
Lemma unknown_nil k : unknown k [].
Proof. exists []. done. Qed.

Lemma doc_round m : doc_ok m → short (doc_wire m) →
  Doc_Marshal m = Some (doc_wire m) ∧ Doc_Size m = zlen (doc_wire m) ∧ Doc_Unmarshal zeroDoc (doc_wire m) = UOk m.
Proof.
  intros Ho Hs. destruct (doc_part m Hs) as [Hw Hz]. split; [by apply marshal_writes|]. split; [done|].
  apply doc_unmarshal; [|done]. by apply doc_back.
Qed.
Lemma tok_round m : tok_ok m → short (tok_wire m) →
  Tok_Marshal m = Some (tok_wire m) ∧ Tok_Size m = zlen (tok_wire m) ∧ Tok_Unmarshal zeroTok (tok_wire m) = UOk m.
Proof.
  intros Ho Hs. destruct (tok_part m Hs) as [Hw Hz]. split; [by apply marshal_writes|]. split; [done|].
  apply tok_unmarshal; [|done]. by apply tok_back.
Qed.
Lemma heart_round m : heart_ok m → short (heart_wire m) →
  Heart_Marshal m = Some (heart_wire m) ∧ Heart_Size m = zlen (heart_wire m) ∧ Heart_Unmarshal zeroHeart (heart_wire m) = UOk m.
Proof.
  intros Ho Hs. destruct (heart_part m) as [Hw Hz]. split; [by apply marshal_writes|]. split; [done|].
  apply heart_unmarshal; [|done]. by apply heart_back.
Qed.
Lemma reply_round m : reply_ok m → short (reply_wire m) →
  Reply_Marshal m = Some (reply_wire m) ∧ Reply_Size m = zlen (reply_wire m) ∧ Reply_Unmarshal zeroReply (reply_wire m) = UOk m.
Proof.
  intros Ho Hs. destruct (reply_part m) as [Hw Hz]. split; [by apply marshal_writes|]. split; [done|].
  apply reply_unmarshal; [|done]. by apply reply_back.
Qed.
Lemma del_round m : del_ok m → short (del_wire m) →
  Del_Marshal m = Some (del_wire m) ∧ Del_Size m = zlen (del_wire m) ∧ Del_Unmarshal zeroDel (del_wire m) = UOk m.
Proof.
  intros Ho Hs. destruct (del_part m Hs) as [Hw Hz]. split; [by apply marshal_writes|]. split; [done|].
  apply del_unmarshal; [|done]. by apply del_back.
Qed.
Lemma expr_round m : expr_ok m → short (expr_wire m) →
  Expr_Marshal m = Some (expr_wire m) ∧ Expr_Size m = zlen (expr_wire m) ∧ Expr_Unmarshal zeroExpr (expr_wire m) = UOk m.
Proof.
  intros Ho Hs. destruct (expr_part m Hs) as [Hw Hz]. split; [by apply marshal_writes|]. split; [done|].
  apply expr_unmarshal; [|done]. by apply expr_back.
Qed.
Lemma logic_round m : logic_ok m → short (logic_wire m) →
  Logic_Marshal m = Some (logic_wire m) ∧ Logic_Size m = zlen (logic_wire m) ∧ Logic_Unmarshal zeroLogic (logic_wire m) = UOk m.
Proof.
  intros Ho Hs. destruct (logic_part m Hs) as [Hw Hz]. split; [by apply marshal_writes|]. split; [done|].
  apply logic_unmarshal; [|done]. by apply logic_back.
Qed.
Lemma attri_round m : attri_ok m → short (attri_wire m) →
  Attri_Marshal m = Some (attri_wire m) ∧ Attri_Size m = zlen (attri_wire m) ∧ Attri_Unmarshal zeroAttri (attri_wire m) = UOk m.
Proof.
  intros Ho Hs. destruct (attri_part m Hs) as [Hw Hz]. split; [by apply marshal_writes|]. split; [done|].
  apply attri_unmarshal; [|done]. by apply attri_back.
Qed.
Lemma text_round m : text_ok m → short (text_wire m) →
  Text_Marshal m = Some (text_wire m) ∧ Text_Size m = zlen (text_wire m) ∧ Text_Unmarshal zeroText (text_wire m) = UOk m.
Proof.
  intros Ho Hs. destruct (text_part m Hs) as [Hw Hz]. split; [by apply marshal_writes|]. split; [done|].
  apply text_unmarshal; [|done]. by apply text_back.
Qed.
Lemma answer_round m : answer_ok m → short (answer_wire m) →
  Answer_Marshal m = Some (answer_wire m) ∧ Answer_Size m = zlen (answer_wire m) ∧ Answer_Unmarshal zeroAnswer (answer_wire m) = UOk m.
Proof.
  intros Ho Hs. destruct (answer_part m Hs) as [Hw Hz]. split; [by apply marshal_writes|]. split; [done|].
  apply answer_unmarshal; [|done]. by apply answer_back.
Qed.
Lemma search_round rs rm m :
  rs (wsDocIds m) ≡ₚ map_to_list (wsDocIds m) → rm (wsDocIds m) ≡ₚ map_to_list (wsDocIds m) →
  search_ok m → short (search_wire (rm (wsDocIds m)) m) →
  Search_Marshal rs rm m = Some (search_wire (rm (wsDocIds m)) m) ∧ Search_Size rs m = zlen (search_wire (rm (wsDocIds m)) m) ∧
  Search_Unmarshal zeroSearch (search_wire (rm (wsDocIds m)) m) = UOk m.
Proof.
  intros Hrs Hrm Ho Hs. destruct (search_part rs rm m Hrs Hrm Hs) as [Hw Hz]. split; [by apply marshal_writes|]. split; [done|].
  apply search_unmarshal; [|done]. by apply search_back.
Qed.

(** the bytes of strings and numbers are bytes *)
Lemma groups_bytes k v : 0 <= v < 128 ^ Z.of_nat (S k) → Forall (λ x, 0 <= x < 256) (groups k v).
Proof.
  revert v. induction k as [|k IH]; intros v Hv.
  - change (128 ^ Z.of_nat 1) with 128 in Hv. repeat constructor; lia.
  - destruct (decide (v < 128)).
    + rewrite groups_last by done. repeat constructor; lia.
    + rewrite groups_step by lia. rewrite pow_128 in Hv. constructor; [pose proof (Z.mod_pos_bound v 128); lia|].
      apply IH. split; [apply Z.div_pos; lia|]. apply Z.div_lt_upper_bound; lia.
Qed.
Lemma varint_bytes v : 0 <= v < 2^64 → Forall (λ x, 0 <= x < 256) (varint v).
Proof. intros H. apply (groups_bytes 9). change (128 ^ Z.of_nat 10) with (2^70). lia. Qed.
Lemma bytesOf_bytes s : Forall (λ x, 0 <= x < 256) (bytesOf s).
Proof.
  induction s as [|a s IH]; simpl; constructor; [|done]. split; [lia|].
  pose proof (Ascii.N_ascii_bounded a). lia.
Qed.
Lemma str_bytes n s : 1 <= n < 16 → strlen s < 2^62 → Forall (λ x, 0 <= x < 256) (wire (str n s)).
Proof.
  intros Hn Hs. unfold str, raw. destruct (decide _); [constructor|]. rewrite wire_one, record_len by done.
  constructor; [lia|]. rewrite Forall_app. split; [|apply bytesOf_bytes]. apply varint_bytes.
  rewrite zlen_bytesOf. pose proof (zlen_nonneg (bytesOf s)) as H. rewrite zlen_bytesOf in H. lia.
Qed.
Lemma num_bytes n v : 1 <= n < 16 → Forall (λ x, 0 <= x < 256) (wire (num n v)).
Proof.
  intros Hn. unfold num. destruct (decide _); [constructor|]. rewrite wire_one, record_num by done.
  constructor; [lia|]. apply varint_bytes. apply Z.mod_pos_bound. lia.
Qed.
Lemma attri_bytes ti au tm ts : short (attri_wire (attributes ti au tm ts)) →
  Forall (λ x, 0 <= x < 256) (attri_wire (attributes ti au tm ts)).
Proof.
  unfold attri_wire. simpl. intros H. bound. rewrite !Forall_app.
  repeat split; [apply str_bytes; [done|bstr]|apply str_bytes; [done|bstr]|apply str_bytes; [done|bstr]|by apply num_bytes|constructor].
Qed.

Lemma docMsg_ok q : sendable q → doc_ok (docMsg q).
Proof.
  intros [H _]. split; [|apply unknown_nil]. simpl. apply Forall_map. eapply Forall_impl; [exact H|].
  intros [s ls] Hl. split; [exact Hl|apply unknown_nil].
Qed.
Lemma reqOf_docMsg q : reqOf (docMsg q) = q.
Proof.
  destruct q as [id ct at_ tk lb fo]. unfold reqOf, docMsg. simpl. rewrite stringOf_bytesOf, map_map.
  f_equal. rewrite <- (map_id tk) at 2. apply map_ext. by intros [s ls].
Qed.
Lemma doc_arrives q ti au tm ts :
  sendable q → fits64 ts → short (attri_wire (attributes ti au tm ts)) →
  Attri_Marshal (attributes ti au tm ts) = Some (bytesOf (dqAttri q)) →
  ∃ data, sendDoc q = Some data ∧
    recvDoc data = Served (mkIndexCall (dqId q) (dqContent q) (mkAttri "" "" tm ts) (dqTokens q) [] (dqForce q)).
Proof.
  intros Hq Hts Hsa Ha. destruct (doc_round (docMsg q)) as (H1 & _ & H2); [by apply docMsg_ok|apply Hq|].
  destruct (attri_round (attributes ti au tm ts)) as (A1 & _ & A2); [split; [done|apply unknown_nil]|done|].
  rewrite A1 in Ha. injection Ha as Ha.
  exists (doc_wire (docMsg q)). split; [exact H1|]. unfold recvDoc. rewrite H2. simpl receive.
  change (wdAttri (docMsg q)) with (bytesOf (dqAttri q)). rewrite <- Ha, A2. simpl. rewrite reqOf_docMsg. done.
Qed.
(** such a string exists for all attributes *)
Lemma attri_string ti au tm ts : fits64 ts → short (attri_wire (attributes ti au tm ts)) →
  ∃ s, Attri_Marshal (attributes ti au tm ts) = Some (bytesOf s).
Proof.
  intros Hts Hs. destruct (attri_round (attributes ti au tm ts)) as (A1 & _ & _); [split; [done|apply unknown_nil]|done|].
  exists (stringOf (attri_wire (attributes ti au tm ts))). rewrite A1. rewrite bytesOf_stringOf; [done|]. by apply attri_bytes.
Qed.
Lemma doc_always_served q : sendable q → calm (bytesOf (dqAttri q)) →
  ∃ data time ts, sendDoc q = Some data ∧
    recvDoc data = Served (mkIndexCall (dqId q) (dqContent q) (mkAttri "" "" time ts) (dqTokens q) [] (dqForce q)).
Proof.
  intros Hq Hc. destruct (doc_round (docMsg q)) as (H1 & _ & H2); [by apply docMsg_ok|apply Hq|].
  exists (doc_wire (docMsg q)).
  assert (zlen (bytesOf (dqAttri q)) < 2^62) as Hl by (destruct Hc as (_ & Hc & _); lia).
  pose proof (attri_fine zeroAttri _ Hl) as Hf. unfold recvDoc. rewrite H2. simpl receive.
  change (wdAttri (docMsg q)) with (bytesOf (dqAttri q)).
  destruct (Attri_Unmarshal zeroAttri (bytesOf (dqAttri q))) as [a|a| |]; simpl in Hf; [..|done|done];
    exists (waTime a), (waTs a); (split; [exact H1|]); simpl; rewrite reqOf_docMsg; done.
Qed.

Lemma netint32 x : ModelNet.int32 x = GoBase.int32 x.
Proof. done. Qed.
Lemma search_arrives rs rm cf s :
  rs (saDocIds s) ≡ₚ map_to_list (saDocIds s) → rm (saDocIds s) ≡ₚ map_to_list (saDocIds s) →
  searchable s (rm (saDocIds s)) →
  ∃ data, sendSearch rs rm s = Some data ∧
    recvSearch cf data = Served (mkSea (saId s) (saQuery s) (saTime s) (pageOf cf (saOff s) (saMax s)).1 (pageOf cf (saOff s) (saMax s)).2
      (saDocIds s) (saLogic s)).
Proof.
  intros Hrs Hrm (Ho & Hm & Hs).
  assert (Hd : wsDocIds (searchMsg s) = saDocIds s) by done.
  destruct (search_round rs rm (searchMsg s)) as (H1 & _ & H2); rewrite ?Hd; [done..| |done|].
  { unfold searchMsg, rpcPage. rewrite !netint32, !int32_id by done. split; [exact Ho|]. split; [exact Hm|].
    split; [|apply unknown_nil]. intros g [= <-]. split; [|apply unknown_nil]. intros e [= <-]. apply unknown_nil. }
  rewrite Hd in H1, H2. eexists. split; [exact H1|]. unfold recvSearch. rewrite H2. simpl.
  rewrite !netint32, !int32_id by done. destruct (pageOf cf (saOff s) (saMax s)) as [off max]. simpl. by destruct (saLogic s).
Qed.
Lemma answer_arrives now texts :
  Forall bare texts → fits64 now → zlen texts < 2^31 → short (answer_wire (answerMsg now texts)) →
  ∃ data, sendAnswer now texts = Some data ∧ recvAnswer data = Served (0, zlen texts, now, texts).
Proof.
  intros Hb Hn Hl Hs. pose proof (zlen_nonneg texts).
  destruct (answer_round (answerMsg now texts)) as (H1 & _ & H2); [|done|].
  { unfold answerMsg. rewrite int32_id by lia. split; [unfold fits32; simpl; lia|]. split; [unfold fits32; simpl; lia|].
    split; [exact Hn|]. split; [|apply unknown_nil]. apply Forall_map. eapply Forall_impl; [exact Hb|].
    intros t (_ & _ & _ & Ht). split; [|apply unknown_nil]. intros a [= <-]. split; [exact Ht|apply unknown_nil]. }
  eexists. split; [exact H1|]. unfold recvAnswer. rewrite H2. simpl. rewrite int32_id by lia.
  assert (mapM textOf (map textMsg texts) = Some texts) as ->; [|done].
  clear -Hb. induction Hb as [|t texts Ht Hb IH]; [done|]. simpl. rewrite IH. simpl.
  destruct t as [id ct sc [ti au tm ts]]. destruct Ht as (E1 & E2 & E3 & _). simpl in *. by subst.
Qed.
Lemma del_arrives id : short (del_wire (mkWDel id [])) → ∃ data, sendDel id = Some data ∧ recvDel data = Served id.
Proof.
  intros Hs. destruct (del_round (mkWDel id [])) as (H1 & _ & H2); [apply unknown_nil|done|].
  eexists. split; [exact H1|]. unfold recvDel. rewrite H2. done.
Qed.
Lemma heart_echo v : fits32 v →
  ∃ data back, Heart_Marshal (mkWHeart v []) = Some data ∧ recvHeart data = Served back ∧ Reply_Unmarshal zeroReply back = UOk (mkWReply v []).
Proof.
  intros Hv.
  assert (Hsh : short (wire (num 1 v) ++ [])).
  { unfold short, num. destruct (decide (v = 0)); [done|]. rewrite app_nil_r, wire_one, record_num, zlen_cons by done.
    pose proof (varint_len (v `mod` 2^64)). lia. }
  destruct (heart_round (mkWHeart v [])) as (H1 & _ & H2); [split; [done|apply unknown_nil]|exact Hsh|].
  destruct (reply_round (mkWReply v [])) as (R1 & _ & R2); [split; [done|apply unknown_nil]|exact Hsh|].
  eexists _, _. split; [exact H1|]. unfold recvHeart. rewrite H2. simpl receive. simpl whMsg. rewrite R1. done.
Qed.

(** * Calm requests *)
Lemma fields_keeps {M} (field : Z → Z → list Z → Z → M → option (rd M)) keep (P : M → Prop) data :
  (∀ num wt j m, P m → match field num wt data j m with Some (Got m' _) => P m' | _ => True end) →
  (∀ b m, P m → P (keep b m)) →
  ∀ fuel i m, P m → match fields field keep fuel data i m with UOk m' => P m' | _ => True end.
Proof.
  intros Hf Hk. induction fuel as [|fuel IH]; intros i m Hm; cbn [fields]; [done|].
  destruct (i <? zlen data); [|by destruct (zlen data <? i)].
  destruct (readNum u64 data i) as [w j|w| |]; try done. cbv zeta.
  destruct (_ =? 4); [done|]. destruct (_ <=? 0); [done|].
  pose proof (Hf (int32 (Z.shiftr w 3)) (Z.land w 7) j m Hm) as H.
  destruct (field _ _ _ _ _) as [[m' k|m'| |]|]; try done; [by apply IH|].
  destruct (zslice data i (zlen data)) as [d|]; [|done]. destruct (skipDoc d) as [u n|u| |]; try done.
  destruct (n <? 0); [done|]. destruct (zlen data <? _); [done|].
  destruct (zslice data i _) as [b|]; [|done]. apply IH. by apply Hk.
Qed.
Lemma readBytes_calm trunc data i b j : calm data → readBytes trunc data i = Got b j → calm b.
Proof.
  intros Hc. unfold readBytes. destruct (readNum _ _ _) as [n k|n| |]; try done. cbv zeta.
  destruct (_ <? 0); [done|]. destruct (zlen data <? _); [done|].
  destruct (zslice data k _) as [c|] eqn:E; [|done]. intros [= <- _].
  apply zslice_sub in E as (_ & _ & _ & p & q & -> & _). by eapply calm_sub.
Qed.
Lemma calm_nil : calm [].
Proof. split; [constructor|]. split; [done|]. by intros [|] ?. Qed.
Lemma doc_attri_calm data : calm data →
  match Doc_Unmarshal zeroDoc data with UOk m => calm (wdAttri m) | _ => True end.
Proof.
  intros Hc. apply (fields_keeps _ _ (λ m, calm (wdAttri m))); [|by intros b []|apply calm_nil].
  intros num wt j [id ct at_ tk lb fi fo re] Hm. simpl in Hm. unfold Doc_field, strCase, bytesCase, flagCase, msgCase.
  repeat match goal with
  | |- context [if ?b then _ else _] => destruct b; [|]
  | |- context [readBytes ?t data j] => let E := fresh "E" in destruct (readBytes t data j) as [b k|b| |] eqn:E
  | |- context [readNum ?t data j] => destruct (readNum t data j)
  | |- context [Tok_Unmarshal ?t ?d] => destruct (Tok_Unmarshal t d)
  end; try done; try exact Hm; try (eapply readBytes_calm; [exact Hc|eassumption]).
Qed.
Lemma heart_fits data : match Heart_Unmarshal zeroHeart data with UOk m => fits32 (whMsg m) | _ => True end.
Proof.
  apply (fields_keeps _ _ (λ m, fits32 (whMsg m))); [|by intros b []|unfold fits32; simpl; lia].
  intros num wt j m Hm. unfold Heart_field, numCase. destruct (num =? 1); [|done]. destruct (wt =? 0); [|done].
  destruct (readNum int32 data j) as [v k|v| |] eqn:E; try done. simpl.
  apply readNum_form in E as (pre & bs & post & _ & _ & _ & _ & ->); [|apply cuts_int32|done].
  unfold fits32. unfold int32. pose proof (Z.mod_pos_bound (val bs + 2^31) (2^32)). lia.
Qed.
Lemma calm_survived data : calm data →
  recvDoc data ≠ Crashed ∧ recvDel data ≠ Crashed ∧ recvHeart data ≠ Crashed ∧
  ∀ cf, recvSearch cf data = Crashed → ∃ m, Search_Unmarshal zeroSearch data = UOk m ∧
    (wsLogic m = None ∨ ∃ g, wsLogic m = Some g ∧ wgExpr g = None).
Proof.
  intros Hc. assert (zlen data < 2^62) as Hl by (destruct Hc as (_ & H & _); lia). split; [|split; [|split]].
  - unfold recvDoc. pose proof (doc_fine zeroDoc data Hl) as H. pose proof (doc_attri_calm data Hc) as Ha.
    destruct (Doc_Unmarshal zeroDoc data) as [m|m| |]; simpl in *; try done.
    pose proof (attri_fine zeroAttri (wdAttri m)) as Hf. destruct (Attri_Unmarshal _ _); try done; exfalso; apply Hf; try done; destruct Ha as (_ & H2 & _); lia.
  - unfold recvDel. pose proof (del_fine zeroDel data Hl) as H. by destruct (Del_Unmarshal zeroDel data).
  - unfold recvHeart. pose proof (heart_fine zeroHeart data Hl) as H. pose proof (heart_fits data) as Hf.
    destruct (Heart_Unmarshal zeroHeart data) as [m|m| |]; simpl in *; try done.
    destruct (heart_echo _ Hf) as (d & back & H1 & H2 & _).
    destruct (reply_round (mkWReply (whMsg m) [])) as (R1 & _ & _); [split; [done|apply unknown_nil]| |by rewrite R1].
    unfold short, reply_wire, num. simpl. destruct (decide (whMsg m = 0)); [done|]. rewrite app_nil_r, wire_one, record_num, zlen_cons by done.
    pose proof (varint_len ((whMsg m) `mod` 2^64)). lia.
  - intros cf. unfold recvSearch. pose proof (search_fine zeroSearch data Hl) as H.
    destruct (Search_Unmarshal zeroSearch data) as [m|m| |]; simpl in *; try done.
    intros E. exists m. split; [done|]. destruct (wsLogic m) as [[mu sh no [[em es en r]|] r']|]; [|by right; eexists|by left].
    by destruct (pageOf _ _ _).
Qed.
