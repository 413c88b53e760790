(** Property C110. *)
From Verif Require Import SpecWireNet ProofWireNet.

(** * C110: the calls of the gRPC service end to end, on the bytes that travel *)
(** A document sent with encoded attributes is indexed with its own text, tokens, time and
    timestamp; its labels, and title and author of the attributes, are left behind. *)
Theorem C110_document_arrives : ∀ q ti au tm ts,
  sendable q → fits64 ts → short (attri_wire (attributes ti au tm ts)) →
  Attri_Marshal (attributes ti au tm ts) = Some (bytesOf (dqAttri q)) →
  ∃ data, sendDoc q = Some data ∧
    recvDoc data = Served (mkIndexCall (dqId q) (dqContent q) (mkAttri "" "" tm ts) (dqTokens q) [] (dqForce q)).
Proof. exact doc_arrives. Qed.
Print Assumptions C110_document_arrives.
(** Any attributes can be sent so *)
Theorem C110_attributes_can_be_sent : ∀ ti au tm ts, fits64 ts → short (attri_wire (attributes ti au tm ts)) →
  ∃ s, Attri_Marshal (attributes ti au tm ts) = Some (bytesOf s).
Proof. exact attri_string. Qed.
Print Assumptions C110_attributes_can_be_sent.
(** Attributes that are not an encoding do not make the call fail: the document is indexed
    all the same. *)
Theorem C110_bad_attributes_are_not_refused : ∀ q, sendable q → calm (bytesOf (dqAttri q)) →
  ∃ data time ts, sendDoc q = Some data ∧
    recvDoc data = Served (mkIndexCall (dqId q) (dqContent q) (mkAttri "" "" time ts) (dqTokens q) [] (dqForce q)).
Proof. exact doc_always_served. Qed.
Print Assumptions C110_bad_attributes_are_not_refused.
(** A search reaches the engine as the caller asked it, the page as the server puts it,
    whatever the order in which the map of documents is walked. *)
Theorem C110_search_arrives : ∀ rs rm cf s,
  rs (saDocIds s) ≡ₚ map_to_list (saDocIds s) → rm (saDocIds s) ≡ₚ map_to_list (saDocIds s) →
  searchable s (rm (saDocIds s)) →
  ∃ data, sendSearch rs rm s = Some data ∧
    recvSearch cf data = Served (mkSea (saId s) (saQuery s) (saTime s) (pageOf cf (saOff s) (saMax s)).1 (pageOf cf (saOff s) (saMax s)).2
      (saDocIds s) (saLogic s)).
Proof. exact search_arrives. Qed.
Print Assumptions C110_search_arrives.
(** The answer arrives as it was sent, with the code 0. *)
Theorem C110_answer_arrives : ∀ now texts,
  Forall bare texts → fits64 now → zlen texts < 2^31 → short (answer_wire (answerMsg now texts)) →
  ∃ data, sendAnswer now texts = Some data ∧ recvAnswer data = Served (0, zlen texts, now, texts).
Proof. exact answer_arrives. Qed.
Print Assumptions C110_answer_arrives.
Theorem C110_delete_arrives : ∀ id, short (del_wire (mkWDel id [])) → ∃ data, sendDel id = Some data ∧ recvDel data = Served id.
Proof. exact del_arrives. Qed.
Print Assumptions C110_delete_arrives.
Theorem C110_heartbeat_is_echoed : ∀ v, fits32 v →
  ∃ data back, Heart_Marshal (mkWHeart v []) = Some data ∧ recvHeart data = Served back ∧ Reply_Unmarshal zeroReply back = UOk (mkWReply v []).
Proof. exact heart_echo. Qed.
Print Assumptions C110_heartbeat_is_echoed.

(** Each of the four calls can be made to end the server with one small request: a length
    that wraps around; a search without logic, even an empty one; and attributes inside a
    valid document request. *)
Definition crashString : bytes := [0x0a; 255; 255; 255; 255; 255; 255; 255; 255; 127].
Definition crashSkip : bytes := [0x08; 1; 0x12; 245; 255; 255; 255; 255; 255; 255; 255; 127].
Theorem C110_server_survives_refuted :
  recvDoc crashString = Crashed ∧ recvDel crashString = Crashed ∧ (∀ cf, recvSearch cf crashString = Crashed) ∧
  recvHeart crashSkip = Crashed ∧ (∀ cf, recvSearch cf [] = Crashed) ∧
  (∃ q, sendable q ∧ match sendDoc q with Some data => recvDoc data = Crashed | None => False end).
Proof.
  do 2 (split; [vm_compute; reflexivity|]). split; [intros cf; vm_compute; reflexivity|].
  split; [vm_compute; reflexivity|]. split; [intros cf; vm_compute; reflexivity|].
  exists (mkDocReq "1" "a" (stringOf crashString) [] [] false).
  split; [split; [constructor|unfold short; vm_compute; reflexivity]|vm_compute; reflexivity].
Qed.
Print Assumptions C110_server_survives_refuted.

(** Without four bytes 255 in a row no request ends the server, except a search that lacks
    logic or expression. *)
Theorem C110_calm_requests_are_survived : ∀ data, calm data →
  recvDoc data ≠ Crashed ∧ recvDel data ≠ Crashed ∧ recvHeart data ≠ Crashed ∧
  ∀ cf, recvSearch cf data = Crashed → ∃ m, Search_Unmarshal zeroSearch data = UOk m ∧
    (wsLogic m = None ∨ ∃ g, wsLogic m = Some g ∧ wgExpr g = None).
Proof. exact calm_survived. Qed.
Print Assumptions C110_calm_requests_are_survived.
Example C110_case_calm : calm [0x12; 1; 97; 255; 255; 255; 1] ∧ ∀ cf, recvSearch cf [0x12; 1; 97] = Crashed.
Proof.
  split; [|intros cf; vm_compute; reflexivity]. split; [repeat constructor; lia|]. split; [done|]. intros p q E.
  do 4 (destruct p as [|? p]; [simpl in E; discriminate|]; injection E as ? E).
  destruct p as [|? [|? [|? p]]]; simpl in E; try discriminate. by destruct p.
Qed.

Definition exReq : DocReq :=
  mkDocReq "7" "ab c" (stringOf [0x0a; 1; 65; 0x1a; 2; 50; 49; 0x20; 5]) [("ab", [0]); ("c", [3; -2])] ["x"] true.
Example C110_case_doc :
  sendable exReq ∧ fits64 5 ∧ short (attri_wire (attributes "A" "" "21" 5)) ∧
  Attri_Marshal (attributes "A" "" "21" 5) = Some (bytesOf (dqAttri exReq)) ∧
  match sendDoc exReq with
  | Some data => recvDoc data = Served (mkIndexCall "7" "ab c" (mkAttri "" "" "21" 5) [("ab", [0]); ("c", [3; -2])] [] true)
  | None => False end.
Proof.
  split; [split; [repeat constructor; unfold fits32; lia|unfold short; vm_compute; reflexivity]|].
  split; [unfold fits64; lia|]. split; [unfold short; vm_compute; reflexivity|]. split; vm_compute; reflexivity.
Qed.
(** attributes cut short: the title before the cut is decoded, the rest stays empty *)
Definition exBad : DocReq := mkDocReq "7" "a" (stringOf [0x1a; 2; 50; 49; 0x20]) [] [] false.
Example C110_case_bad : sendable exBad ∧ calm (bytesOf (dqAttri exBad)) ∧
  match sendDoc exBad with
  | Some data => recvDoc data = Served (mkIndexCall "7" "a" (mkAttri "" "" "21" 0) [] [] false)
  | None => False end.
Proof.
  split; [split; [constructor|unfold short; vm_compute; reflexivity]|]. split; [|vm_compute; reflexivity].
  split; [repeat constructor; simpl; lia|]. split; [vm_compute; reflexivity|]. intros p q E.
  assert (H : 255 ∈ bytesOf (dqAttri exBad)) by (rewrite E; set_solver).
  change (255 ∈ [0x1a; 2; 50; 49; 0x20]) in H. rewrite !elem_of_cons, elem_of_nil in H. lia.
Qed.
Definition exSea : SeaArgs := mkSea "u" "ab" "t" 2 0 {["1" := true; "2" := false]} (mkLogic true false true ["a"] [] ["b"; "c"]).
Example C110_case_search :
  searchable exSea (map_to_list (saDocIds exSea)) ∧
  match sendSearch (λ m, map_to_list m) (λ m, reverse (map_to_list m)) exSea with
  | Some data => match recvSearch (mkNetConf 1 30) data with
    | Served (mkSea id q t off max ids g) =>
      id = "u" ∧ q = "ab" ∧ t = "t" ∧ off = 1 ∧ max = 30 ∧ map_to_list ids = map_to_list (saDocIds exSea) ∧ length (map_to_list ids) = 2%nat ∧
      g = mkLogic true false true ["a"] [] ["b"; "c"]
    | _ => False end
  | None => False end.
Proof.
  split; [split; [unfold fits32; simpl; lia|split; [unfold fits32; simpl; lia|unfold short; vm_compute; reflexivity]]|vm_compute; repeat split; reflexivity].
Qed.
Example C110_case_answer :
  let t := mkText "1" "ab" [] (mkAttri "" "" "21" (-5)) in
  Forall bare [t; t] ∧ short (answer_wire (answerMsg 1500000000 [t; t])) ∧
  match sendAnswer 1500000000 [t; t] with Some data => recvAnswer data = Served (0, 2, 1500000000, [t; t]) | None => False end.
Proof.
  split; [repeat constructor; simpl; unfold fits64; lia|]. split; [unfold short; vm_compute; reflexivity|vm_compute; reflexivity].
Qed.
