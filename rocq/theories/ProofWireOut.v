(** What Marshal writes (C108). *)
From Verif Require Import SpecWire ProofWire.

Lemma wire_app a b : wire (a ++ b) = wire a ++ wire b.
Proof. unfold wire. by rewrite map_app, concat_app. Qed.
Lemma wire_nil : wire [] = [].
Proof. done. Qed.
Lemma wire_one f : wire [f] = record f.
Proof. unfold wire. simpl. apply app_nil_r. Qed.
Lemma wire_cons f fs : wire (f :: fs) = record f ++ wire fs.
Proof. done. Qed.
Lemma zlen_bytesOf s : zlen (bytesOf s) = strlen s.
Proof. induction s as [|a s IH]; [done|]. simpl. rewrite zlen_cons, IH. unfold strlen. simpl String.length. lia. Qed.
Lemma bytesOf_nil s : bytesOf s = [] → s = "".
Proof. by destruct s. Qed.

Lemma tag_varint t : 0 <= t < 128 → varint t = [t].
Proof. intros H. apply groups_last. lia. Qed.
Lemma record_len n b : 1 <= n < 16 → record (n, Len b) = (8 * n + 2) :: varint (zlen b) ++ b.
Proof. intros H. unfold record. simpl fst. simpl snd. simpl wtype. simpl body. rewrite tag_varint by lia. done. Qed.
Lemma record_num n v : 1 <= n < 16 → record (n, Num v) = (8 * n) :: varint v.
Proof. intros H. unfold record. simpl fst. simpl snd. simpl wtype. simpl body. rewrite tag_varint by lia. by rewrite Z.add_0_r. Qed.
Lemma zlen_record_len n b : zlen b <= zlen (record (n, Len b)).
Proof. unfold record. simpl. rewrite !zlen_app. pose proof (varint_len (8 * n + 2)). pose proof (varint_len (zlen b)). lia. Qed.
Lemma size_len n b : 1 <= n < 16 → zlen b < 2^62 → lenSize (zlen b) = zlen (record (n, Len b)).
Proof.
  intros Hn Hb. rewrite record_len by done. rewrite zlen_cons, zlen_app. unfold lenSize.
  pose proof (zlen_nonneg b). rewrite u64_id by lia. rewrite sovDoc_varint by lia. lia.
Qed.

(** writer, size and bytes of a part of a message *)
Definition part (w : writer) (size : Z) (b : bytes) : Prop := writes w b ∧ size = zlen b.
Lemma part_seq w1 w2 s1 s2 b1 b2 : part w1 s1 b1 → part w2 s2 b2 → part (w1 ;> w2) (s1 + s2) (b1 ++ b2).
Proof. intros [H1 ->] [H2 ->]. split; [by apply writes_seq|]. by rewrite zlen_app. Qed.
Lemma part_copy b : part (copyW b) (zlen b) b.
Proof. split; [apply writes_copy|done]. Qed.
Lemma part_raw n tag b : 1 <= n < 16 → tag = 8 * n + 2 → zlen b < 2^62 → part (optLenW tag b) (optLen (zlen b)) (wire (raw n b)).
Proof.
  intros Hn -> Hb. unfold raw, optLenW, optLen. pose proof (zlen_nonneg b). destruct (decide (b = [])) as [->|Hne].
  - split; [apply writes_skip|done].
  - assert (0 < zlen b) by (destruct b; [done|rewrite zlen_cons; pose proof (zlen_nonneg b); lia]).
    rewrite (proj2 (Z.ltb_lt _ _)) by lia. rewrite wire_one. split.
    + rewrite record_len by done. unfold ifW, lenW. change (?x :: ?y) with ([x] ++ y).
      apply writes_seq; [apply writes_put|]. apply writes_seq; [|apply writes_copy].
      rewrite u64_id by lia. apply writes_varint. lia.
    + by apply size_len.
Qed.
Lemma part_str n tag s : 1 <= n < 16 → tag = 8 * n + 2 → strlen s < 2^62 →
  part (optLenW tag (bytesOf s)) (optLen (strlen s)) (wire (str n s)).
Proof. intros Hn Ht Hs. rewrite <- zlen_bytesOf in Hs |- *. by apply part_raw. Qed.
Lemma part_num n tag v : 1 <= n < 16 → tag = 8 * n → part (optNumW tag v) (optNum v) (wire (num n v)).
Proof.
  intros Hn ->. unfold num, optNumW, optNum. destruct (decide (v = 0)) as [->|Hne].
  - split; [apply writes_skip|done].
  - rewrite (proj2 (Z.eqb_neq _ _)) by done. rewrite wire_one, record_num by done. simpl. unfold u64.
    pose proof (Z.mod_pos_bound v (2^64)). split.
    + change (?x :: ?y) with ([x] ++ y). apply writes_seq; [apply writes_put|]. apply writes_varint. lia.
    + rewrite zlen_cons, sovDoc_varint by lia. lia.
Qed.
Lemma part_flag n tag b : 1 <= n < 16 → tag = 8 * n → part (optFlagW tag b) (optFlag b) (wire (flag n b)).
Proof.
  intros Hn ->. unfold flag, optFlagW, optFlag. destruct b; simpl ifW.
  - rewrite wire_one, record_num by done. split; [|done]. change (varint 1) with [1].
    change [8 * n; 1] with ([8 * n] ++ [1]). apply writes_seq; apply writes_put.
  - split; [apply writes_skip|done].
Qed.
Lemma sumZ_from {A} (f : A → Z) l z : foldl (λ n x, n + f x) z l = z + sumZ f l.
Proof.
  unfold sumZ. revert z. induction l as [|x l IH]; intros z; cbn [foldl]; [lia|].
  rewrite (IH (z + f x)), (IH (0 + f x)). lia.
Qed.
Lemma sumZ_cons {A} (f : A → Z) x l : sumZ f (x :: l) = f x + sumZ f l.
Proof. unfold sumZ at 1. cbn [foldl]. rewrite sumZ_from. lia. Qed.
Lemma part_each {A} (w : A → writer) (size : A → Z) (e : A → bytes) l :
  (∀ x, x ∈ l → part (w x) (size x) (e x)) → part (eachW w l) (sumZ size l) (concat (map e l)).
Proof.
  induction l as [|x l IH]; intros H; simpl.
  - split; [apply writes_skip|done].
  - rewrite sumZ_cons. apply part_seq; [apply H; left|]. apply IH. intros y Hy. apply H. by right.
Qed.
Lemma part_len n tag b : 1 <= n < 16 → tag = 8 * n + 2 → zlen b < 2^62 → part (lenW tag b) (lenSize (zlen b)) (record (n, Len b)).
Proof.
  intros Hn -> Hb. pose proof (zlen_nonneg b). split; [|by apply size_len].
  rewrite record_len by done. unfold lenW. change (?x :: ?y) with ([x] ++ y).
  apply writes_seq; [apply writes_put|]. apply writes_seq; [|apply writes_copy].
  rewrite u64_id by lia. apply writes_varint. lia.
Qed.
Lemma part_strs n tag l : 1 <= n < 16 → tag = 8 * n + 2 → zlen (wire (strs n l)) < 2^62 →
  part (eachW (λ s, lenW tag (bytesOf s)) l) (sumZ (λ s, lenSize (strlen s)) l) (wire (strs n l)).
Proof.
  intros Hn Ht Hl. unfold strs, wire in *. rewrite map_map in *. apply part_each. intros s Hs.
  rewrite <- zlen_bytesOf. apply part_len; [done..|].
  assert (zlen (record (n, Len (bytesOf s))) <= zlen (concat (map (λ x, record (n, Len (bytesOf x))) l))).
  { clear Hl. induction Hs as [x l|x y l Hs IH]; simpl; rewrite zlen_app.
    - pose proof (zlen_nonneg (concat (map (λ x, record (n, Len (bytesOf x))) l))). lia.
    - pose proof (zlen_nonneg (record (n, Len (bytesOf y)))). lia. }
  pose proof (zlen_record_len n (bytesOf s)). lia.
Qed.
Lemma part_msg n tag w size b : 1 <= n < 16 → tag = 8 * n + 2 → zlen b < 2^62 → part w size b →
  part (msgW tag size w) (lenSize size) (record (n, Len b)).
Proof.
  intros Hn -> Hb [Hw ->]. pose proof (zlen_nonneg b). split; [|by apply size_len].
  rewrite record_len by done. unfold msgW. change (?x :: ?y) with ([x] ++ y).
  apply writes_seq; [apply writes_put|]. apply writes_seq; [|by apply writes_inner].
  rewrite u64_id by lia. apply writes_varint. lia.
Qed.
Lemma zlen_msgs_in n b l : b ∈ l → zlen b <= zlen (wire (msgs n l)).
Proof.
  intros Hb. induction Hb as [b l|b c l Hb IH]; simpl; rewrite wire_cons, zlen_app.
  - pose proof (zlen_record_len n b). pose proof (zlen_nonneg (wire (msgs n l))). unfold msgs in *. lia.
  - pose proof (zlen_nonneg (record (n, Len c))). unfold msgs in *. lia.
Qed.
Lemma part_msgs {A} n tag (w : A → writer) (size : A → Z) (e : A → bytes) l :
  1 <= n < 16 → tag = 8 * n + 2 → zlen (wire (msgs n (map e l))) < 2^62 →
  (∀ x, x ∈ l → zlen (e x) < 2^62 → part (w x) (size x) (e x)) →
  part (eachW (λ x, msgW tag (size x) (w x)) l) (sumZ (λ x, lenSize (size x)) l) (wire (msgs n (map e l))).
Proof.
  intros Hn Ht Hl H.
  assert (Hin : ∀ x, x ∈ l → zlen (e x) < 2^62).
  { intros x Hx. pose proof (zlen_msgs_in n (e x) (map e l)) as Hz.
    assert (e x ∈ map e l) by (apply elem_of_list_In, in_map, elem_of_list_In, Hx). specialize (Hz H0). lia. }
  unfold msgs, wire. rewrite !map_map. apply part_each. intros x Hx.
  apply part_msg; [done..| |]; [by apply Hin|]. apply H; [done|]. by apply Hin.
Qed.
Lemma part_opt {A} n tag (w : A → writer) (size : A → Z) (e : A → bytes) (o : option A) :
  1 <= n < 16 → tag = 8 * n + 2 → zlen (wire (msg n (e <$> o))) < 2^62 →
  (∀ x, o = Some x → zlen (e x) < 2^62 → part (w x) (size x) (e x)) →
  part match o with Some x => msgW tag (size x) (w x) | None => skipW end
       match o with Some x => lenSize (size x) | None => 0 end (wire (msg n (e <$> o))).
Proof.
  intros Hn Ht Hl H. destruct o as [x|]; simpl in *; [|split; [apply writes_skip|done]].
  rewrite wire_one in *. pose proof (zlen_record_len n (e x)). apply part_msg; [done..| |]; [lia|]. apply H; [done|lia].
Qed.

Lemma zlen_raw n b : zlen b <= zlen (wire (raw n b)).
Proof.
  unfold raw. destruct (decide (b = [])) as [->|]; [done|]. rewrite wire_one. apply zlen_record_len.
Qed.
Lemma strlen_str n s : strlen s <= zlen (wire (str n s)).
Proof. rewrite <- zlen_bytesOf. apply zlen_raw. Qed.

(** splitting the bound on the whole message *)
Ltac bound :=
  unfold short in *; repeat rewrite wire_app in *; repeat rewrite zlen_app in *;
  repeat match goal with
  | _ : context [zlen ?x] |- _ =>
    lazymatch goal with H : 0 <= zlen x |- _ => fail | _ => pose proof (zlen_nonneg x) end
  end.
Ltac bstr :=
  match goal with
  | |- strlen ?s < _ => match goal with H : context [wire (str ?n s)] |- _ => pose proof (strlen_str n s); lia end
  | |- zlen ?b < _ => match goal with H : context [wire (raw ?n b)] |- _ => pose proof (zlen_raw n b); lia end
  end.

Lemma heart_part m : part (Heart_MarshalTo m) (Heart_Size m) (heart_wire m).
Proof. unfold Heart_MarshalTo, Heart_Size, heart_wire. apply part_seq; [by apply part_num|apply part_copy]. Qed.
Lemma reply_part m : part (Reply_MarshalTo m) (Reply_Size m) (reply_wire m).
Proof. unfold Reply_MarshalTo, Reply_Size, reply_wire. apply part_seq; [by apply part_num|apply part_copy]. Qed.
Lemma del_part m : short (del_wire m) → part (Del_MarshalTo m) (Del_Size m) (del_wire m).
Proof.
  unfold Del_MarshalTo, Del_Size, del_wire. intros H. bound. apply part_seq; [apply part_str; [done..|]|apply part_copy]. bstr.
Qed.

Lemma concat_varint_len l : (length (concat (map (λ v, varint (v `mod` 2^64)) l)) <= length l * 10)%nat.
Proof.
  induction l as [|v l IH]; simpl; [lia|]. rewrite app_length.
  pose proof (varint_len (v `mod` 2^64)). unfold zlen in *. lia.
Qed.
Lemma tok_part m : short (tok_wire m) → part (Tok_MarshalTo m) (Tok_Size m) (tok_wire m).
Proof.
  unfold Tok_MarshalTo, Tok_Size, tok_wire. intros H. bound.
  set (pk := concat (map (λ v, varint (v `mod` 2^64)) (wtLocs m))) in *.
  rewrite <- app_assoc.
  assert (part (locsW (wtLocs m)) (sumZ (λ e, sovDoc (u64 e)) (wtLocs m)) pk) as [Hw Hs].
  { apply part_each. intros v Hv. pose proof (u64_range v). split; [by apply writes_varint|]. by apply sovDoc_varint. }
  assert (Hpk : zlen pk < 2^62) by bstr.
  rewrite <- Z.add_assoc. apply part_seq; [apply part_str; [done..|]; bstr|].
  apply part_seq; [|apply part_copy].
  destruct (decide (wtLocs m = [])) as [E|E].
  { assert (pk = []) as -> by (unfold pk; by rewrite E). rewrite E. split; [apply writes_skip|done]. }
  assert (0 < zlen (wtLocs m)).
  { destruct (wtLocs m) as [|x ls]; [done|]. rewrite zlen_cons. pose proof (zlen_nonneg ls). lia. }
  rewrite (proj2 (Z.ltb_lt _ _)) by lia.
  assert (Hne : pk ≠ []).
  { unfold pk. destruct (wtLocs m) as [|x ls]; [done|]. simpl. pose proof (varint_len (x `mod` 2^64)) as Hv.
    destruct (varint (x `mod` 2^64)); [rewrite zlen_nil in Hv; lia|done]. }
  unfold raw. rewrite decide_False by done. rewrite wire_one.
  pose proof (part_len 2 0x12 pk) as Hl. destruct Hl as [Hl1 Hl2]; [done..|]. split.
  - unfold ifW. intros pre rest Hr.
    pose proof (concat_varint_len (wtLocs m)) as Hc. fold pk in Hc.
    specialize (Hw [] (replicate (length (wtLocs m) * 10) 0)). change (zlen (@nil Z)) with 0 in Hw. simpl app in Hw.
    rewrite Hw by (rewrite replicate_length; done). simpl fst. simpl snd. rewrite Z.add_0_l.
    pose proof (zslice_mid [] pk (drop (length pk) (replicate (length (wtLocs m) * 10) 0)) 0 (zlen pk)) as Hz.
    simpl app in Hz. simpl. rewrite Hz by done. simpl. by apply Hl1.
  - rewrite Hs. unfold lenSize in Hl2. lia.
Qed.
Lemma expr_part m : short (expr_wire m) → part (Expr_MarshalTo m) (Expr_Size m) (expr_wire m).
Proof.
  unfold Expr_MarshalTo, Expr_Size, expr_wire. intros H. bound. rewrite <- !app_assoc, <- !Z.add_assoc.
  repeat first [apply part_copy | apply part_seq | (apply part_strs; [done..|lia])].
Qed.
Lemma logic_part m : short (logic_wire m) → part (Logic_MarshalTo m) (Logic_Size m) (logic_wire m).
Proof.
  unfold Logic_MarshalTo, Logic_Size, logic_wire. intros H. bound. rewrite <- !app_assoc, <- !Z.add_assoc.
  repeat first [apply part_copy | apply part_seq | (apply part_flag; done)].
  apply (part_opt 4 _ Expr_MarshalTo Expr_Size expr_wire); [done..|lia|]. intros e _ He. by apply expr_part.
Qed.
Lemma attri_part m : short (attri_wire m) → part (Attri_MarshalTo m) (Attri_Size m) (attri_wire m).
Proof.
  unfold Attri_MarshalTo, Attri_Size, attri_wire. intros H. bound. rewrite <- !app_assoc, <- !Z.add_assoc.
  repeat first [apply part_copy | apply part_seq | (apply part_num; done) | (apply part_str; [done..|bstr])].
Qed.
Lemma text_part m : short (text_wire m) → part (Text_MarshalTo m) (Text_Size m) (text_wire m).
Proof.
  unfold Text_MarshalTo, Text_Size, text_wire. intros H. bound. rewrite <- !app_assoc, <- !Z.add_assoc.
  repeat first [apply part_copy | apply part_seq | (apply part_str; [done..|bstr])].
  apply (part_opt 3 _ Attri_MarshalTo Attri_Size attri_wire); [done..|lia|]. intros e _ He. by apply attri_part.
Qed.
Lemma answer_part m : short (answer_wire m) → part (Answer_MarshalTo m) (Answer_Size m) (answer_wire m).
Proof.
  unfold Answer_MarshalTo, Answer_Size, answer_wire. intros H. bound. rewrite <- !app_assoc, <- !Z.add_assoc.
  repeat first [apply part_copy | apply part_seq | (apply part_num; done)].
  apply part_msgs; [done..|lia|]. intros e _ He. by apply text_part.
Qed.
Lemma doc_part m : short (doc_wire m) → part (Doc_MarshalTo m) (Doc_Size m) (doc_wire m).
Proof.
  unfold Doc_MarshalTo, Doc_Size, doc_wire. intros H. bound. rewrite <- !app_assoc, <- !Z.add_assoc.
  repeat first [apply part_copy | apply part_seq | (apply part_flag; done) | (apply part_str; [done..|bstr]) | (apply part_raw; [done..|bstr]) | (apply part_strs; [done..|lia])].
  apply part_msgs; [done..|lia|]. intros e _ He. by apply tok_part.
Qed.

(** the two loops over the map may take the entries in different orders *)
Lemma entry_part m k v : m !! k = Some v → zlen (entry_wire (k, v)) < 2^62 →
  part (entryW m k) (lenSize (entrySize k)) (record (6, Len (entry_wire (k, v)))).
Proof.
  intros Hk Hl. unfold entryW. rewrite Hk. simpl default.
  assert (Hw : entry_wire (k, v) = [0xa] ++ varint (strlen k) ++ bytesOf k ++ [0x10] ++ [if v then 1 else 0]).
  { unfold entry_wire. rewrite wire_cons, wire_one, record_len, record_num by done. simpl fst. simpl snd.
    rewrite zlen_bytesOf. destruct v; simpl; by rewrite <- app_assoc. }
  pose proof (zlen_bytesOf k) as Hb. pose proof (zlen_nonneg (bytesOf k)).
  assert (Hs : entrySize k = zlen (entry_wire (k, v))).
  { rewrite Hw. unfold entrySize. rewrite !zlen_app, Hb.
    change (zlen [10]) with 1. change (zlen [16]) with 1. change (zlen [if v then 1 else 0]) with 1.
    assert (strlen k < 2^62).
    { rewrite Hw in Hl. rewrite !zlen_app, Hb in Hl. pose proof (varint_len (strlen k)).
      pose proof (zlen_nonneg [10]). pose proof (zlen_nonneg [16]). pose proof (zlen_nonneg [if v then 1 else 0]). lia. }
    rewrite u64_id by lia. rewrite sovDoc_varint by lia. lia. }
  rewrite Hs. pose proof (zlen_nonneg (entry_wire (k, v))). split; [|by apply size_len].
  rewrite record_len by done. change (?x :: ?y) with ([x] ++ y).
  apply writes_seq; [apply writes_put|]. apply writes_seq.
  - rewrite u64_id by lia. apply writes_varint. lia.
  - rewrite Hw. apply writes_seq; [apply writes_put|]. apply writes_seq.
    + assert (strlen k < 2^62).
      { rewrite <- Hs in Hl. unfold entrySize in Hl. pose proof (u64_range (strlen k)).
        rewrite sovDoc_varint in Hl by lia. pose proof (varint_len (u64 (strlen k))). lia. }
      rewrite u64_id by lia. apply writes_varint. lia.
    + apply writes_seq; [apply writes_copy|]. apply writes_seq; apply writes_put.
Qed.
Lemma sumZ_perm {A} (f : A → Z) l k : l ≡ₚ k → sumZ f l = sumZ f k.
Proof. induction 1; rewrite ?sumZ_cons; [done|lia|lia|lia]. Qed.
Lemma search_part rs rm m :
  rs (wsDocIds m) ≡ₚ map_to_list (wsDocIds m) → rm (wsDocIds m) ≡ₚ map_to_list (wsDocIds m) →
  short (search_wire (rm (wsDocIds m)) m) →
  part (Search_MarshalTo rm m) (Search_Size rs m) (search_wire (rm (wsDocIds m)) m).
Proof.
  intros Hrs Hrm. unfold Search_MarshalTo, Search_Size, search_wire. intros H. bound.
  rewrite (sumZ_perm _ _ _ (Permutation_trans Hrs (Permutation_sym Hrm))).
  rewrite <- !app_assoc, <- !Z.add_assoc.
  repeat first [apply part_copy | apply part_seq | (apply part_num; done) | (apply part_str; [done..|bstr])].
  - unfold msgs, wire. rewrite !map_map. apply part_each. intros [k v] He. simpl fst. apply entry_part.
    + apply elem_of_map_to_list. by rewrite <- Hrm.
    + pose proof (zlen_msgs_in 6 (entry_wire (k, v)) (map entry_wire (rm (wsDocIds m)))) as Hz.
      assert (entry_wire (k, v) ∈ map entry_wire (rm (wsDocIds m))) by (apply elem_of_list_In, in_map, elem_of_list_In, He).
      specialize (Hz ltac:(assumption)). lia.
  - apply (part_opt 7 _ Logic_MarshalTo Logic_Size logic_wire); [done..|lia|]. intros e _ He. by apply logic_part.
Qed.
