(** Theorems about examples/codelab and examples/pinyin_weibo. *)
From Coq Require Import Floats.SpecFloat.
From Verif Require Import ModelExamples ModelFlight SpecExamples SpecIndexer SpecSearch SpecRank SpecRoute SpecPipe SpecSegment SpecEngine SpecEnd SpecBM25 SpecWhole SpecScored
  SpecDuring SpecFlight ProofIxThms ProofSortBy ProofFlight ProofExamples ProofCodelab ExampleTools PropPipe PropEngine PropFlight PropEnd PropBM25 PropSegment PropWhole
  PropScored PropRevise PropExamples.

(** * C103: examples/codelab answers with the weibos of the file *)
(** For each id, the table has what the last line with this id says. *)
Theorem C103_table lines id :
  match readCodelab lines !! id with
  | Some w => cwId w = id ∧ last_line lines w
  | None => ∀ l w, l ∈ lines → codelab_line l w → cwId w ≠ id
  end.
Proof. exact (readCodelab_lem lines id). Qed.
Print Assumptions C103_table.
Theorem C103_scores_are_numbers asCSF : (∀ f w, asCSF f = Some w → 0 <= csReposts w < 2 ^ 64) → sane_scoring (codelabScore asCSF).
Proof. exact (codelab_sane asCSF). Qed.
Print Assumptions C103_scores_are_numbers.
(** As the comment in the source says: weibos whose words are next to each other come first. *)
Theorem C103_adjacent_first asCSF x1 f1 w1 x2 f2 w2 : asCSF f1 = Some w1 → asCSF f2 = Some w2 →
  TokenProximity x1 <= 2 → 2 < TokenProximity x2 < 2 ^ 63 → ranks_above (codelabScore asCSF x1 f1) (codelabScore asCSF x2 f2).
Proof. exact (codelab_near asCSF x1 f1 w1 x2 f2 w2). Qed.
Print Assumptions C103_adjacent_first.
(** When the engine has done its work: the reply has the hundred best of the weibos that
    match, with the data of the table. The order in which the map is visited does not matter. *)
Theorem C103_replies_with_the_matches asCSF boxC X stop so murmur n reqsFirst cap file kvs prog sortDocs sortBy o s0 nseg s shards log2 query order :
  let m := readCodelab (scanLines file) in let tokens := Tokens X stop so query [] in
  (∀ f w, asCSF f = Some w → 0 <= csReposts w < 2 ^ 64) → (∀ c, 0 <= csReposts c < 2 ^ 64 → asCSF (boxC c) = Some c) →
  valid_range X → 1 <= n < 2 ^ 32 → kvs ≡ₚ map_to_list m → codelabProg boxC X stop so kvs = Some prog →
  valid_sort sortDocs → valid_sortBy sortBy → Init o = Some s0 →
  pipe_reach murmur n false reqsFirst cap nseg [pipeProg prog] s → quiescent s →
  engine_shards sortDocs s0 false n s shards → usual_log2 log2 → usual_calls o murmur n (ordinary (pipeProg prog)) →
  tokens ≠ [] → all_arrive (length shards) order →
  ∃ full out shown resp, Search log2 sortBy (codelabReq asCSF X stop so query) shards order = Some resp ∧
    resp = mkResp tokens false (zlen full) (Some out) ∧
    codelab_answers asCSF boxC X stop so
      (λ text doc x, let i := shard_for murmur n (DocId doc) text in
         describes log2 o (shard_total shards i) (shard_docs murmur n i (ordinary (pipeProg prog))) tokens doc x)
      m tokens full ∧
    Forall2 same_scores out (page 0 100 full) ∧ out ⊆+ full ∧
    codelabShow m resp = Some shown ∧ Forall2 (λ h w, m !! sdDocId h = Some w) out shown.
Proof.
  intros m tokens Hr Hbox HX Hn Hkvs Hp Hv Hvb HI.
  exact (codelab_search asCSF boxC Hr X stop so HX murmur n reqsFirst cap Hn (scanLines file) kvs Hkvs prog Hp
    sortDocs sortBy o s0 nseg s shards log2 query order Hbox Hv Hvb HI).
Qed.
Print Assumptions C103_replies_with_the_matches.
(** At any time, in particular while indexing is under way: no panic, only weibos that match,
    each at most once. *)
Theorem C103_replies_only_matches_at_any_time asCSF boxC X stop so murmur n reqsFirst cap file kvs prog sortDocs o s0 nseg
    log2 sortBy ccap clients tl tr shards ls fs ps ans query t0 :
  let m := readCodelab (scanLines file) in let tokens := Tokens X stop so query [] in
  (∀ f w, asCSF f = Some w → 0 <= csReposts w < 2 ^ 64) →
  valid_range X → 1 <= n < 2 ^ 32 → kvs ≡ₚ map_to_list m → codelabProg boxC X stop so kvs = Some prog →
  valid_sort sortDocs → Init o = Some s0 →
  frun log2 sortBy (Z.to_nat n) ccap ls (fInit (Z.to_nat n) clients tl tr shards) = Some fs →
  written_by (pipeStep murmur n false reqsFirst cap) (pipeInit n nseg [pipeProg prog]) sortDocs s0 false n (fWorlds fs) ps →
  valid_sortBy sortBy → ans ∈ fAnswers fs → fReqs fs !! faSearch ans = Some (codelabReq asCSF X stop so query, t0) →
  usual_log2 log2 → usual_history o (pipeProg prog) → tokens ≠ [] →
  ∃ full out shown, faResp ans = mkResp tokens false (zlen full) (Some out) ∧
    (∀ h, h ∈ full → ∃ id w doc, id ≠ "0" ∧ codelab_doc boxC X stop so m id w doc ∧ (∀ t, t ∈ tokens → t ∈ Text <$> Keywords doc) ∧
       sdDocId h = id ∧ sdContent h = cwText w) ∧
    NoDup (sdDocId <$> full) ∧ Forall2 same_scores out (page 0 100 full) ∧ out ⊆+ full ∧
    codelabShow m (faResp ans) = Some shown ∧ Forall2 (λ h w, m !! sdDocId h = Some w) out shown.
Proof.
  intros m tokens Hr HX Hn Hkvs Hp.
  exact (codelab_any_time asCSF boxC Hr X stop so HX murmur n reqsFirst cap Hn (scanLines file) kvs Hkvs prog Hp sortDocs o s0 nseg
    log2 sortBy ccap clients tl tr shards ls fs ps ans query t0).
Qed.
Print Assumptions C103_replies_only_matches_at_any_time.

(** A file with five lines: the third is no weibo, the last gives the weibo "a" again. *)
Definition cxBox (c : CSF) : Iface := IOther (Zpos (encode (csTime c, csReposts c))).
Definition cxUnbox (f : Iface) : option CSF :=
  match f with
  | IOther (Zpos p) => '(a, b) ← decode p; if decide (0 <= b < 2 ^ 64) then Some (mkCSF a b) else None
  | _ => None
  end.
Lemma cxUnbox_ok c : 0 <= csReposts c < 2 ^ 64 → cxUnbox (cxBox c) = Some c.
Proof. intros H. unfold cxUnbox, cxBox. rewrite decode_encode. cbn [mbind option_bind]. rewrite decide_True by done. by destruct c. Qed.
Lemma cxUnbox_range f w : cxUnbox f = Some w → 0 <= csReposts w < 2 ^ 64.
Proof.
  unfold cxUnbox. destruct f as [| |[|p|]]; try done. destruct (decode p) as [[a b]|]; [|done]. cbn [mbind option_bind].
  destruct (decide _); [|done]. by intros [= <-].
Qed.
Definition cbLine (id time user reposts text : string) : string :=
  (id +:+ "||||" +:+ time +:+ "||||x||||" +:+ user +:+ "||||" +:+ reposts +:+ "||||p||||q||||r||||s||||" +:+ text +:+ newline)%string.
Definition cbFile : string :=
  (cbLine "a" "1" "u" "7" "Dog" +:+ cbLine "b" "864000" "v" "3" "Cat dog" +:+ "no weibo" +:+ newline +:+
   cbLine "c" "259200" "w" "1" "Dog cat dog" +:+ cbLine "a" "2" "u" "x" "Cat cat")%string.
Definition cbTable : gmap string CWeibo := readCodelab (scanLines cbFile).
Definition cbKvs : list (string * CWeibo) := map_to_list cbTable.
Definition cbProg : list wcall := default [] (codelabProg cxBox exX ∅ (gse 1) cbKvs).
Definition cbReq (q : string) : SearchReq := codelabReq cxUnbox exX ∅ (gse 1) q.
Definition cbShown (q : string) (s : pstate) : option (list CWeibo) :=
  r ← Search log2c insSortBy (cbReq q) (revShards s) [Some 0%nat]; codelabShow cbTable r.
Definition cbMid rf : pstate := pRun hash0 1 rf [5; 4; 3; 2; 1; 0]%nat 33 (pipeInit 1 1 [pipeProg cbProg]).
Definition cbEnd rf : pstate := pRun hash0 1 rf [5; 4; 3; 2; 1; 0]%nat 400 (cbMid rf).
Definition cbA : CWeibo := mkCW "a" 2 "u" 0 "Cat cat".
Definition cbB : CWeibo := mkCW "b" 864000 "v" 3 "Cat dog".
Definition cbC : CWeibo := mkCW "c" 259200 "w" 1 "Dog cat dog".
Definition zlCb (d : DocIndex) : Z := if seqb (DocId d) "c" then 3 else 2.
Definition cbDocs : list DocIndex := Eval vm_compute in indexed (pipeProg cbProg).
Lemma cbDocs_ok : indexed (pipeProg cbProg) = cbDocs.
Proof. vm_compute. reflexivity. Qed.
Lemma in_indexed cs d f ct a fo : EIndex d f ct a fo ∈ cs → d ∈ indexed cs.
Proof. intros H. apply elem_of_list_omap. eexists. split; [exact H|done]. Qed.
Lemma cb_usual : usual_history (optsF 2) (pipeProg cbProg) ∧ usual_calls (optsF 2) hash0 1 (ordinary (pipeProg cbProg)).
Proof.
  assert (HU : ∀ p, BM25Parameters (optsF 2) = Some p → usual p) by (intros p [= <-]; by vm_compute).
  assert (HD : Forall usual_doc cbDocs) by (repeat constructor).
  assert (HZ : Forall (λ d, TokenLen d = f32_of_Z (zlCb d) ∧ 0 <= zlCb d) cbDocs) by (repeat constructor; by vm_compute).
  assert (HO : ∀ d f ct a fo, EIndex d f ct a fo ∈ ordinary (pipeProg cbProg) → d ∈ cbDocs).
  { intros d f ct a fo [_ H]%elem_of_list_filter. rewrite <- cbDocs_ok. by eapply in_indexed. }
  split.
  - split; [exact HU|]. split; [vm_compute; reflexivity|]. rewrite cbDocs_ok. split; [exact HD|]. exists zlCb. split; [exact HZ|vm_compute; reflexivity].
  - split; [exact HU|]. split; [vm_compute; reflexivity|]. rewrite Forall_forall in HD, HZ.
    split; [intros d f ct a fo H; exact (HD d (HO _ _ _ _ _ H))|]. exists zlCb.
    split; [intros d f ct a fo H; exact (HZ d (HO _ _ _ _ _ H))|]. intros i Hi. assert (i = 0) as -> by lia. vm_compute. reflexivity.
Qed.
Lemma cb_reach rf : pipe_reach hash0 1 false rf PropPipe.cap1 1 [pipeProg cbProg] (cbMid rf) ∧
  pipe_reach hash0 1 false rf PropPipe.cap1 1 [pipeProg cbProg] (cbEnd rf).
Proof.
  assert (R : pipe_reach hash0 1 false rf PropPipe.cap1 1 [pipeProg cbProg] (cbMid rf)) by (unfold cbMid; apply pRun_reach).
  split; [exact R|]. unfold cbEnd. eapply rtc_transitive; [exact R|apply pRun_reach].
Qed.
Example C103_case rf : ∃ s0, Init (optsF 2) = Some s0 ∧ (∀ f w, cxUnbox f = Some w → 0 <= csReposts w < 2 ^ 64) ∧
  (∀ c, 0 <= csReposts c < 2 ^ 64 → cxUnbox (cxBox c) = Some c) ∧ valid_range exX ∧
  cbKvs ≡ₚ map_to_list cbTable ∧ cbKvs = [("b", cbB); ("a", cbA); ("c", cbC)] ∧
  codelabProg cxBox exX ∅ (gse 1) cbKvs = Some cbProg ∧
  usual_log2 log2c ∧ usual_history (optsF 2) (pipeProg cbProg) ∧ usual_calls (optsF 2) hash0 1 (ordinary (pipeProg cbProg)) ∧
  pipe_reach hash0 1 false rf PropPipe.cap1 1 [pipeProg cbProg] (cbEnd rf) ∧ quiescent (cbEnd rf) ∧
  engine_shards stableSort s0 false 1 (cbEnd rf) (revShards (cbEnd rf)) ∧
  Tokens exX ∅ (gse 1) "cat" [] = ["cat"] ∧
  cbShown "cat" (cbEnd rf) = Some [cbB; cbC; cbA] ∧ cbShown "dog" (cbEnd rf) = Some [cbB; cbC].
Proof.
  destruct (Init (optsF 2)) as [s0|] eqn:EI; [|discriminate EI]. exists s0. split; [reflexivity|]. split; [exact cxUnbox_range|]. split; [exact cxUnbox_ok|].
  split; [exact exX_range|]. split; [reflexivity|]. split; [vm_compute; reflexivity|]. split; [vm_compute; reflexivity|].
  split; [exact log2c_usual|]. split; [exact (proj1 cb_usual)|]. split; [exact (proj2 cb_usual)|]. split; [exact (proj2 (cb_reach rf))|].
  split; [apply quiescentb_ok; destruct rf; vm_compute; reflexivity|].
  split; [apply revShards_ok; [exact EI|destruct rf; vm_compute; reflexivity]|].
  split; [vm_compute; reflexivity|]. split; destruct rf; vm_compute; reflexivity.
Qed.
(** A search while indexing is under way finds two of the three. *)
Definition cbInit : fstate := fInit 1 [[cbReq "cat"]] 1 1 (revShards (cbMid true)).
Definition cbTurns : list flabel := driven 1 (rounds 40 4) cbInit.
Example C103_case_at_any_time : ∃ s0 ls fs ans t0, Init (optsF 2) = Some s0 ∧
  exRun 1 ls (fInit 1 [[cbReq "cat"]] 1 1 (revShards (cbMid true))) = Some fs ∧
  written_by (pipeStep hash0 1 false true PropPipe.cap1) (pipeInit 1 1 [pipeProg cbProg]) stableSort s0 false 1 (fWorlds fs) [cbMid true] ∧
  ans ∈ fAnswers fs ∧ fReqs fs !! faSearch ans = Some (cbReq "cat", t0) ∧
  codelabShow cbTable (faResp ans) = Some [cbB; cbA].
Proof.
  destruct (Init (optsF 2)) as [s0|] eqn:EI; [|discriminate EI].
  assert (HC : match exRun 1 cbTurns cbInit with
    | Some fs => fWorlds fs = [revShards (cbMid true)] ∧
        match fAnswers fs with
        | [ans] => faSearch ans = O ∧ codelabShow cbTable (faResp ans) = Some [cbB; cbA]
        | _ => False
        end ∧ length (fReqs fs) = 1%nat
    | None => False end) by (vm_compute; split; [reflexivity|split; [split; reflexivity|reflexivity]]).
  destruct (exRun 1 cbTurns cbInit) as [fs|] eqn:E; [|destruct HC]. destruct HC as (H1 & H2 & H3).
  destruct (fAnswers fs) as [|ans [|]] eqn:EA; [destruct H2| |destruct H2]. destruct H2 as [H2 H4].
  pose proof (one_request cbTurns fs (cbReq "cat") _ E H3) as HR.
  destruct (fReqs fs) as [|[r t0] l] eqn:ER; [discriminate HR|]. cbn in HR. injection HR as -> _.
  exists s0, cbTurns, fs, ans, t0. split; [reflexivity|]. split; [exact E|]. split.
  - rewrite H1. refine (written_one _ _ _ _ _ _ _ _ (proj1 (cb_reach true)) _). apply revShards_ok; [exact EI|vm_compute; reflexivity].
  - rewrite EA, ER, H2. split; [left|]. split; [reflexivity|exact H4].
Qed.
Example C103_case_adjacent : ∃ w1 w2, cxUnbox (cxBox (mkCSF 0 0)) = Some w1 ∧ cxUnbox (cxBox (mkCSF 864000 9)) = Some w2 ∧
  ranks_above (codelabScore cxUnbox (mkIDoc "" f_zero 2 [] []) (cxBox (mkCSF 0 0)))
              (codelabScore cxUnbox (mkIDoc "" f_zero 3 [] []) (cxBox (mkCSF 864000 9))) ∧
  cbTable !! "a" = Some cbA ∧ cbTable !! "d" = None.
Proof.
  exists (mkCSF 0 0), (mkCSF 864000 9). split; [by vm_compute|]. split; [by vm_compute|].
  split; [by eapply C103_adjacent_first; [by vm_compute..|]|]. split; by vm_compute.
Qed.

(** A claim one might make: among the others, closer words come first. False for large
    distances, as the quotients are rounded. *)
Theorem C103_closer_first_refuted : ∃ x1 x2 w1 w2, 2 < TokenProximity x1 < TokenProximity x2 ∧ TokenProximity x2 < 2 ^ 63 ∧
  ranks_above (codelabScore cxUnbox x2 (cxBox w2)) (codelabScore cxUnbox x1 (cxBox w1)).
Proof.
  exists (mkIDoc "" f_zero 16777216 [] []), (mkIDoc "" f_zero 16777217 [] []), (mkCSF 0 0), (mkCSF 259200 0).
  split; [done|]. split; [done|]. vm_compute. apply above_later; [done|]. by apply above_here.
Qed.
Print Assumptions C103_closer_first_refuted.

(** * examples/pinyin_weibo *)
(** The two documents for each line, with the tokens of all lines read so far. *)
Theorem C103_pinyin_documents X stop so lines i buf : lines !! i = Some buf →
  let tokens := mjoin ((λ l, (λ t, mkTok t []) <$> PinYin X stop so l) <$> take (S i) lines) in
  length (pinIndex X stop so lines) = (2 * length lines)%nat ∧
  pinIndex X stop so lines !! (2 * i)%nat = Some (pretty (2 * i + 1)%nat, mkData "" INil tokens [] (IStr buf)) ∧
  pinIndex X stop so lines !! (2 * i + 1)%nat = Some (pretty (2 * i + 2)%nat, mkData buf INil tokens [] INil).
Proof. exact (pin_index X stop so lines i buf). Qed.
Print Assumptions C103_pinyin_documents.
(** The documents for a line should have the tokens of this line. *)
Theorem C103_pinyin_own_tokens_refuted : ∃ X stop so lines i id data buf, lines !! i = Some buf ∧
  pinIndex X stop so lines !! (2 * i + 1)%nat = Some (id, data) ∧
  ¬ ∀ t, t ∈ ddTokens data → tkText t ∈ PinYin X stop so buf.
Proof.
  exists exX, ∅, (gse 1), ["ab"; "cd"], 1%nat. do 2 eexists. exists "cd". split; [done|]. split; [vm_compute; reflexivity|].
  intros H. specialize (H (mkTok "a" []) ltac:(left)). revert H. apply (bool_decide_unpack _). vm_compute. exact I.
Qed.
Print Assumptions C103_pinyin_own_tokens_refuted.
