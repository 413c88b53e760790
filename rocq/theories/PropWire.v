(** Properties C108 and C109. *)
From Verif Require Import SpecWire ProofWireIn ProofWireSafe ProofWireNet.

(** * C108: the messages of the gRPC service survive the trip over the wire *)
(** Each message is written without panic as the protocol says, in exactly the number of
    bytes announced by Size, and reading these bytes gives the message back, with the
    fields of a newer version that it may carry. *)
Theorem C108_heartbeat : ∀ m : WHeart, heart_ok m → short (heart_wire m) →
  Heart_Marshal m = Some (heart_wire m) ∧ Heart_Size m = zlen (heart_wire m) ∧ Heart_Unmarshal zeroHeart (heart_wire m) = UOk m.
Proof. exact heart_round. Qed.
Print Assumptions C108_heartbeat.
Theorem C108_token : ∀ m : WTok, tok_ok m → short (tok_wire m) →
  Tok_Marshal m = Some (tok_wire m) ∧ Tok_Size m = zlen (tok_wire m) ∧ Tok_Unmarshal zeroTok (tok_wire m) = UOk m.
Proof. exact tok_round. Qed.
Print Assumptions C108_token.
Theorem C108_document : ∀ m : WDoc, doc_ok m → short (doc_wire m) →
  Doc_Marshal m = Some (doc_wire m) ∧ Doc_Size m = zlen (doc_wire m) ∧ Doc_Unmarshal zeroDoc (doc_wire m) = UOk m.
Proof. exact doc_round. Qed.
Print Assumptions C108_document.
Theorem C108_delete : ∀ m : WDel, del_ok m → short (del_wire m) →
  Del_Marshal m = Some (del_wire m) ∧ Del_Size m = zlen (del_wire m) ∧ Del_Unmarshal zeroDel (del_wire m) = UOk m.
Proof. exact del_round. Qed.
Print Assumptions C108_delete.
Theorem C108_reply : ∀ m : WReply, reply_ok m → short (reply_wire m) →
  Reply_Marshal m = Some (reply_wire m) ∧ Reply_Size m = zlen (reply_wire m) ∧ Reply_Unmarshal zeroReply (reply_wire m) = UOk m.
Proof. exact reply_round. Qed.
Print Assumptions C108_reply.
Theorem C108_expression : ∀ m : WExpr, expr_ok m → short (expr_wire m) →
  Expr_Marshal m = Some (expr_wire m) ∧ Expr_Size m = zlen (expr_wire m) ∧ Expr_Unmarshal zeroExpr (expr_wire m) = UOk m.
Proof. exact expr_round. Qed.
Print Assumptions C108_expression.
Theorem C108_logic : ∀ m : WLogic, logic_ok m → short (logic_wire m) →
  Logic_Marshal m = Some (logic_wire m) ∧ Logic_Size m = zlen (logic_wire m) ∧ Logic_Unmarshal zeroLogic (logic_wire m) = UOk m.
Proof. exact logic_round. Qed.
Print Assumptions C108_logic.
Theorem C108_attributes : ∀ m : WAttri, attri_ok m → short (attri_wire m) →
  Attri_Marshal m = Some (attri_wire m) ∧ Attri_Size m = zlen (attri_wire m) ∧ Attri_Unmarshal zeroAttri (attri_wire m) = UOk m.
Proof. exact attri_round. Qed.
Print Assumptions C108_attributes.
Theorem C108_text : ∀ m : WText, text_ok m → short (text_wire m) →
  Text_Marshal m = Some (text_wire m) ∧ Text_Size m = zlen (text_wire m) ∧ Text_Unmarshal zeroText (text_wire m) = UOk m.
Proof. exact text_round. Qed.
Print Assumptions C108_text.
Theorem C108_answer : ∀ m : WAnswer, answer_ok m → short (answer_wire m) →
  Answer_Marshal m = Some (answer_wire m) ∧ Answer_Size m = zlen (answer_wire m) ∧ Answer_Unmarshal zeroAnswer (answer_wire m) = UOk m.
Proof. exact answer_round. Qed.
Print Assumptions C108_answer.
(** whatever the order in which the two loops visit the map *)
Theorem C108_search : ∀ rs rm (m : WSearch),
  rs (wsDocIds m) ≡ₚ map_to_list (wsDocIds m) → rm (wsDocIds m) ≡ₚ map_to_list (wsDocIds m) →
  search_ok m → short (search_wire (rm (wsDocIds m)) m) →
  Search_Marshal rs rm m = Some (search_wire (rm (wsDocIds m)) m) ∧ Search_Size rs m = zlen (search_wire (rm (wsDocIds m)) m) ∧
  Search_Unmarshal zeroSearch (search_wire (rm (wsDocIds m)) m) = UOk m.
Proof. exact search_round. Qed.
Print Assumptions C108_search.

(** Messages of other programs are understood too: fields in any order, repeated fields
    appended, the last of several values, messages merged, unknown fields kept. *)
Theorem C108_any_heartbeat : ∀ m b m', heart_reads m b m' → short b → Heart_Unmarshal m b = UOk m'.
Proof. exact heart_unmarshal. Qed.
Print Assumptions C108_any_heartbeat.
Theorem C108_any_token : ∀ m b m', tok_reads m b m' → short b → Tok_Unmarshal m b = UOk m'.
Proof. exact tok_unmarshal. Qed.
Print Assumptions C108_any_token.
Theorem C108_any_document : ∀ m b m', doc_reads m b m' → short b → Doc_Unmarshal m b = UOk m'.
Proof. exact doc_unmarshal. Qed.
Print Assumptions C108_any_document.
Theorem C108_any_delete : ∀ m b m', del_reads m b m' → short b → Del_Unmarshal m b = UOk m'.
Proof. exact del_unmarshal. Qed.
Print Assumptions C108_any_delete.
Theorem C108_any_reply : ∀ m b m', reply_reads m b m' → short b → Reply_Unmarshal m b = UOk m'.
Proof. exact reply_unmarshal. Qed.
Print Assumptions C108_any_reply.
Theorem C108_any_expression : ∀ m b m', expr_reads m b m' → short b → Expr_Unmarshal m b = UOk m'.
Proof. exact expr_unmarshal. Qed.
Print Assumptions C108_any_expression.
Theorem C108_any_logic : ∀ m b m', logic_reads m b m' → short b → Logic_Unmarshal m b = UOk m'.
Proof. exact logic_unmarshal. Qed.
Print Assumptions C108_any_logic.
Theorem C108_any_attributes : ∀ m b m', attri_reads m b m' → short b → Attri_Unmarshal m b = UOk m'.
Proof. exact attri_unmarshal. Qed.
Print Assumptions C108_any_attributes.
Theorem C108_any_text : ∀ m b m', text_reads m b m' → short b → Text_Unmarshal m b = UOk m'.
Proof. exact text_unmarshal. Qed.
Print Assumptions C108_any_text.
Theorem C108_any_answer : ∀ m b m', answer_reads m b m' → short b → Answer_Unmarshal m b = UOk m'.
Proof. exact answer_unmarshal. Qed.
Print Assumptions C108_any_answer.
Theorem C108_any_search : ∀ m b m', search_reads m b m' → short b → Search_Unmarshal m b = UOk m'.
Proof. exact search_unmarshal. Qed.
Print Assumptions C108_any_search.

(** a request with two tokens, a negative location, attributes and a field 9 of a newer
    version *)
Definition exDoc : WDoc :=
  mkWDoc "7" "ab c" [0x1a; 1; 65] [mkWTok "ab" [0; 300] []; mkWTok "c" [-1] [0x18; 5]] ["x"; ""] [255; 0] true [0x48; 1].
Definition exDoc_bytes : list Z :=
  [0x0a; 1; 55; 0x12; 4; 97; 98; 32; 99; 0x1a; 3; 0x1a; 1; 65;
   0x22; 9; 0x0a; 2; 97; 98; 0x12; 3; 0; 172; 2;
   0x22; 17; 0x0a; 1; 99; 0x12; 10; 255; 255; 255; 255; 255; 255; 255; 255; 255; 1; 0x18; 5;
   0x2a; 1; 120; 0x2a; 0; 0x32; 2; 255; 0; 0x38; 1; 0x48; 1].
Example C108_case_ok : doc_ok exDoc.
Proof.
  split.
  - constructor; [|constructor; [|constructor]].
    + split; [|by exists []]. repeat constructor; unfold fits32; lia.
    + split; [repeat constructor; unfold fits32; lia|]. exists [(3, Num 5)]. split; [|done].
      constructor; [|constructor]. split; [split; simpl; lia|]. set_solver.
  - exists [(9, Num 1)]. split; [|done]. constructor; [|constructor]. split; [split; simpl; lia|]. set_solver.
Qed.
Example C108_case : doc_wire exDoc = exDoc_bytes ∧ short (doc_wire exDoc) ∧ Doc_Marshal exDoc = Some exDoc_bytes ∧
  Doc_Unmarshal zeroDoc exDoc_bytes = UOk exDoc.
Proof. split; [vm_compute; reflexivity|]. split; [unfold short; vm_compute; reflexivity|]. split; vm_compute; reflexivity. Qed.
(** fields in another order, locations one by one, one value given twice *)
Definition exAny : list Z :=
  [0x38; 0; 0x22; 6; 0x10; 4; 0x10; 2; 0x0a; 0; 0x12; 1; 98; 0x0a; 1; 97; 0x12; 1; 99; 0x38; 2].
Example C108_case_any : doc_reads zeroDoc exAny (mkWDoc "a" "c" [] [mkWTok "" [4; 2] []] [] [] true []) ∧ short exAny.
Proof.
  split; [|unfold short; vm_compute; reflexivity]. unfold doc_reads, zeroDoc.
  pose (b := [0x10; 4; 0x10; 2; 0x0a; 0] : list Z).
  change exAny with (record (7, Num 0) ++ record (4, Len b) ++ record (2, Len [98]) ++ record (1, Len [97]) ++ record (2, Len [99]) ++ record (7, Num 2) ++ []).
  eapply reads_field; [split; simpl; [lia|lia]|apply doc_force|].
  eapply reads_field; [split; simpl; [lia|done]|apply (doc_token _ (mkWTok "" [4; 2] []))|].
  { change b with (record (2, Num 4) ++ record (2, Num 2) ++ record (1, Len []) ++ []).
    eapply reads_field; [split; simpl; [lia|lia]|apply tok_loc|].
    eapply reads_field; [split; simpl; [lia|lia]|apply tok_loc|].
    eapply reads_field; [split; simpl; [lia|done]|apply tok_text|]. apply reads_end. }
  eapply reads_field; [split; simpl; [lia|done]|apply doc_content|].
  eapply reads_field; [split; simpl; [lia|done]|apply doc_id|].
  eapply reads_field; [split; simpl; [lia|done]|apply doc_content|].
  eapply reads_field; [split; simpl; [lia|lia]|apply doc_force|]. apply reads_end.
Qed.

(** * C109: decoding always ends, and which input makes it panic *)
(** Whatever the bytes (and whatever they are decoded into), Unmarshal comes to an end ... *)
Theorem C109_decoding_ends : ∀ data, zlen data < 2^62 →
  (∀ m, Heart_Unmarshal m data ≠ UMore) ∧
  (∀ m, Tok_Unmarshal m data ≠ UMore) ∧
  (∀ m, Doc_Unmarshal m data ≠ UMore) ∧
  (∀ m, Del_Unmarshal m data ≠ UMore) ∧
  (∀ m, Reply_Unmarshal m data ≠ UMore) ∧
  (∀ m, Expr_Unmarshal m data ≠ UMore) ∧
  (∀ m, Logic_Unmarshal m data ≠ UMore) ∧
  (∀ m, Attri_Unmarshal m data ≠ UMore) ∧
  (∀ m, Text_Unmarshal m data ≠ UMore) ∧
  (∀ m, Answer_Unmarshal m data ≠ UMore) ∧
  (∀ m, Search_Unmarshal m data ≠ UMore).
Proof.
  intros data Hl. repeat split; intros m E;
    [pose proof (heart_fine m data Hl) as H|pose proof (tok_fine m data Hl) as H|pose proof (doc_fine m data Hl) as H|pose proof (del_fine m data Hl) as H|pose proof (reply_fine m data Hl) as H|pose proof (expr_fine m data Hl) as H|pose proof (logic_fine m data Hl) as H|pose proof (attri_fine m data Hl) as H|pose proof (text_fine m data Hl) as H|pose proof (answer_fine m data Hl) as H|pose proof (search_fine m data Hl) as H]; rewrite E in H; exact H.
Qed.
Print Assumptions C109_decoding_ends.
(** ... and it does not panic unless four bytes 255 follow each other somewhere. *)
Theorem C109_calm_input_is_safe : ∀ data, calm data →
  (∀ m, Heart_Unmarshal m data ≠ UBoom) ∧
  (∀ m, Tok_Unmarshal m data ≠ UBoom) ∧
  (∀ m, Doc_Unmarshal m data ≠ UBoom) ∧
  (∀ m, Del_Unmarshal m data ≠ UBoom) ∧
  (∀ m, Reply_Unmarshal m data ≠ UBoom) ∧
  (∀ m, Expr_Unmarshal m data ≠ UBoom) ∧
  (∀ m, Logic_Unmarshal m data ≠ UBoom) ∧
  (∀ m, Attri_Unmarshal m data ≠ UBoom) ∧
  (∀ m, Text_Unmarshal m data ≠ UBoom) ∧
  (∀ m, Answer_Unmarshal m data ≠ UBoom) ∧
  (∀ m, Search_Unmarshal m data ≠ UBoom).
Proof.
  intros data Hc. assert (zlen data < 2^62) as Hl by (destruct Hc as (_ & H & _); lia).
  repeat split; intros m E;
    [pose proof (heart_fine m data Hl) as H|pose proof (tok_fine m data Hl) as H|pose proof (doc_fine m data Hl) as H|pose proof (del_fine m data Hl) as H|pose proof (reply_fine m data Hl) as H|pose proof (expr_fine m data Hl) as H|pose proof (logic_fine m data Hl) as H|pose proof (attri_fine m data Hl) as H|pose proof (text_fine m data Hl) as H|pose proof (answer_fine m data Hl) as H|pose proof (search_fine m data Hl) as H]; rewrite E in H; exact (H Hc).
Qed.
Print Assumptions C109_calm_input_is_safe.
Example C109_case_calm : calm [0x0a; 3; 97; 255; 255; 255; 0x38] .
Proof.
  split; [repeat constructor; lia|]. split; [done|]. intros p q E.
  do 5 (destruct p as [|? p]; [simpl in E; discriminate|]; injection E as ? E).
  destruct p as [|? [|? [|? p]]]; simpl in E; try discriminate. 
Qed.

(** With such bytes a length close to the largest int makes the index wrap around: the
    test for the end of the data passes and the slice expression panics.  A dozen bytes
    are enough, for each of the four requests of the service. *)
Definition hugeString : list Z := [0x0a; 255; 255; 255; 255; 255; 255; 255; 255; 127].
Definition hugeSkip : list Z := [0x08; 1; 0x12; 245; 255; 255; 255; 255; 255; 255; 255; 127].
Theorem C109_no_panic_refuted :
  ¬ (∀ data, Forall (λ b, 0 <= b < 256) data → zlen data < 13 →
       Heart_Unmarshal zeroHeart data ≠ UBoom ∧ Doc_Unmarshal zeroDoc data ≠ UBoom ∧
       Del_Unmarshal zeroDel data ≠ UBoom ∧ Search_Unmarshal zeroSearch data ≠ UBoom) ∧
  Forall (λ b, 0 <= b < 256) hugeString ∧ Forall (λ b, 0 <= b < 256) hugeSkip ∧
  Doc_Unmarshal zeroDoc hugeString = UBoom ∧ Del_Unmarshal zeroDel hugeString = UBoom ∧
  Search_Unmarshal zeroSearch hugeString = UBoom ∧ Heart_Unmarshal zeroHeart hugeSkip = UBoom.
Proof.
  assert (H1 : Forall (λ b, 0 <= b < 256) hugeString) by (repeat constructor; lia).
  assert (H2 : Forall (λ b, 0 <= b < 256) hugeSkip) by (repeat constructor; lia).
  assert (H3 : Doc_Unmarshal zeroDoc hugeString = UBoom) by (vm_compute; reflexivity).
  split; [|repeat split; try done; vm_compute; reflexivity].
  intros H. destruct (H hugeString H1) as (_ & Hd & _); [vm_compute; reflexivity|]. by apply Hd.
Qed.
Print Assumptions C109_no_panic_refuted.
