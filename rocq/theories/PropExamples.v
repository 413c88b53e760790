(** Theorems about the programs that come with the engine. *)
From Coq Require Import Floats.SpecFloat.
From Verif Require Import ModelExamples ModelFlight SpecExamples SpecIndexer SpecSearch SpecRank SpecRoute SpecPipe SpecSegment SpecEngine SpecEnd SpecWhole SpecScored
  SpecDuring SpecFlight ProofIxThms ProofSortBy ProofFlight ProofExamples ExampleTools PropPipe PropEngine PropFlight PropEnd PropBM25 PropSegment PropWhole PropRevise.

(** * C102: examples/weibo reads the file and prints the weibos that match *)
Theorem C102_fields_of_a_line sep s l : sep ≠ "" → fields sep s l ↔ l = Split s sep.
Proof. exact (split_lem sep s l). Qed.
Print Assumptions C102_fields_of_a_line.
(** The lines of the file, up to the first one that is too long for the scanner. *)
Theorem C102_scans_the_lines file pieces : fields newline file pieces → scanned pieces (scanLines file).
Proof. exact (scan_lem file pieces). Qed.
Print Assumptions C102_scans_the_lines.
Theorem C102_reads_the_lines lines : weibos lines (readWeibo lines).
Proof. exact (readWeibo_lem lines). Qed.
Print Assumptions C102_reads_the_lines.
(** The order that the comments in the source promise. *)
Theorem C102_order cvt boxW asWSF x1 w1 b1 x2 w2 b2 : (∀ w, asWSF (boxW w) = Some w) →
  TokenProximity x1 <= 150 → TokenProximity x2 <= 150 → whole_part (BM25 x1) b1 → whole_part (BM25 x2) b2 →
  0 <= wsTime w1 < 2 ^ 32 → 0 <= wsTime w2 < 2 ^ 32 → small b1 → small b2 →
  small (wsReposts w1) → small (wsReposts w2) → small (wsLen w1) → small (wsLen w2) →
  ranks_above (weiboScore cvt asWSF x1 (boxW w1)) (weiboScore cvt asWSF x2 (boxW w2)) ↔ weibo_above w1 b1 w2 b2.
Proof. intros Hbox. exact (weibo_order cvt boxW asWSF Hbox x1 w1 b1 x2 w2 b2). Qed.
Print Assumptions C102_order.
(** When the engine has done its work: everything that matches is printed, in this order, up
    to the hundredth, except for the first weibo of the file. *)
Theorem C102_prints_the_matches cvt boxW asWSF X stop so murmur n reqsFirst cap sortDocs sortBy o s0 nseg file prog s shards log2 query order :
  let ws := readWeibo (scanLines file) in let tokens := Tokens X stop so query [] in
  (∀ w, asWSF (boxW w) = Some w) → valid_range X → 1 <= n < 2 ^ 32 →
  valid_sort sortDocs → valid_sortBy sortBy → Init o = Some s0 → zlen ws < 2 ^ 63 → weiboProg boxW X stop so ws = Some prog →
  pipe_reach murmur n false reqsFirst cap nseg [pipeProg prog] s → quiescent s →
  engine_shards sortDocs s0 false n s shards → tokens ≠ [] → all_arrive (length shards) order →
  ∃ full out shown resp, Search log2 sortBy (weiboReq cvt asWSF X stop so query) shards order = Some resp ∧
    resp = mkResp tokens false (zlen full) (Some out) ∧
    weibo_answers cvt boxW X stop so
      (λ text doc x, let i := shard_for murmur n (DocId doc) text in
         describes log2 o (shard_total shards i) (shard_docs murmur n i (ordinary (pipeProg prog))) tokens doc x)
      ws tokens full ∧
    Forall2 same_scores out (page 0 100 full) ∧ out ⊆+ full ∧
    weiboShow ws resp = Some shown ∧ weibo_printed ws out shown.
Proof.
  intros ws tokens Hbox HX Hn.
  exact (weibo_search cvt boxW asWSF Hbox X stop so HX murmur n reqsFirst cap Hn sortDocs sortBy o s0 nseg ws prog s shards log2 query order).
Qed.
Print Assumptions C102_prints_the_matches.
(** At any time, in particular right after Flush: no panic, only weibos that match, each at
    most once, with their own texts. *)
Theorem C102_prints_only_matches_at_any_time cvt boxW asWSF X stop so murmur n reqsFirst cap sortDocs o s0 nseg file prog
    log2 sortBy ccap clients tl tr shards ls fs ps ans query t0 :
  let ws := readWeibo (scanLines file) in let tokens := Tokens X stop so query [] in
  valid_range X → 1 <= n < 2 ^ 32 →
  valid_sort sortDocs → Init o = Some s0 → zlen ws < 2 ^ 63 → weiboProg boxW X stop so ws = Some prog →
  frun log2 sortBy (Z.to_nat n) ccap ls (fInit (Z.to_nat n) clients tl tr shards) = Some fs →
  written_by (pipeStep murmur n false reqsFirst cap) (pipeInit n nseg [pipeProg prog]) sortDocs s0 false n (fWorlds fs) ps →
  valid_sortBy sortBy → ans ∈ fAnswers fs → fReqs fs !! faSearch ans = Some (weiboReq cvt asWSF X stop so query, t0) →
  tokens ≠ [] →
  ∃ full out shown, faResp ans = mkResp tokens false (zlen full) (Some out) ∧
    (∀ h, h ∈ full → ∃ i w doc, i ≠ O ∧ weibo_doc boxW X stop so ws i w doc ∧ (∀ t, t ∈ tokens → t ∈ Text <$> Keywords doc) ∧
       sdDocId h = pretty i ∧ sdContent h = w.1) ∧
    NoDup (sdDocId <$> full) ∧ Forall2 same_scores out (page 0 100 full) ∧ out ⊆+ full ∧
    weiboShow ws (faResp ans) = Some shown ∧ weibo_printed ws out shown.
Proof.
  intros ws tokens HX Hn.
  exact (weibo_any_time cvt boxW asWSF X stop so HX murmur n reqsFirst cap Hn sortDocs o s0 nseg ws prog
    log2 sortBy ccap clients tl tr shards ls fs ps ans query t0).
Qed.
Print Assumptions C102_prints_only_matches_at_any_time.

(** A file with six lines: the second is no weibo, the last has no text. *)
Definition exBox (w : WSF) : Iface := IOther (Zpos (encode (wsTime w, wsReposts w, wsLen w))).
Definition exUnbox (f : Iface) : option WSF :=
  match f with IOther (Zpos p) => (λ '(a, b, c), mkWSF a b c) <$> decode p | _ => None end.
Lemma exUnbox_ok w : exUnbox (exBox w) = Some w.
Proof. unfold exUnbox, exBox. rewrite decode_encode. by destruct w. Qed.
Definition wbLine (time reposts text : string) : string :=
  ("id||||" +:+ time +:+ "||||x||||user||||" +:+ reposts +:+ "||||p||||q||||r||||s||||" +:+ text +:+ newline)%string.
Definition wbFile : string :=
  (wbLine "864000" "7" "Cat" +:+ "no weibo" +:+ newline +:+ wbLine "86399" "3" "Cat dog" +:+ wbLine "86400" "2" "Dog" +:+
   wbLine "172800" "9" "Dog dog cat" +:+ wbLine "864000" "1" "")%string.
Definition wbRead : list (string * WSF) := readWeibo (scanLines wbFile).
Definition wbProg : list wcall := default [] (weiboProg exBox exX ∅ (gse 1) wbRead).
Definition wbReq (q : string) : SearchReq := weiboReq (λ _, 0) exUnbox exX ∅ (gse 1) q.
Definition wbShown (q : string) (s : pstate) : option (list (list F * string)) :=
  r ← Search log2c insSortBy (wbReq q) (revShards s) [Some 0%nat]; weiboShow wbRead r.
Definition wbFirst rf : pstate := pRun hash0 1 rf [5; 4; 3; 2; 1; 0]%nat 33 (pipeInit 1 1 [pipeProg wbProg]).
(** the ranker gets no more turns *)
Definition wbMid rf : pstate := pRun hash0 1 rf [5; 3; 2; 1; 0]%nat 400 (wbFirst rf).
Definition wbEnd rf : pstate := pRun hash0 1 rf [5; 4; 3; 2; 1; 0]%nat 400 (wbMid rf).
Definition zs (l : list Z) : list F := f32_of_Z <$> l.
Lemma wb_reach rf : pipe_reach hash0 1 false rf PropPipe.cap1 1 [pipeProg wbProg] (wbMid rf) ∧
  pipe_reach hash0 1 false rf PropPipe.cap1 1 [pipeProg wbProg] (wbEnd rf).
Proof.
  assert (R : pipe_reach hash0 1 false rf PropPipe.cap1 1 [pipeProg wbProg] (wbMid rf)).
  { unfold wbMid, wbFirst. eapply rtc_transitive; apply pRun_reach. }
  split; [exact R|]. unfold wbEnd. eapply rtc_transitive; [exact R|apply pRun_reach].
Qed.
Lemma written_one step init sortDocs s0 only n p sh : rtc step init p → engine_shards sortDocs s0 only n p sh →
  written_by step init sortDocs s0 only n [sh] [p].
Proof.
  intros Hr He. split; [intros q Hq; injection Hq as <-; exact Hr|]. split; [intros [|t] q q' _ Hq; discriminate Hq|].
  constructor; [exact He|constructor].
Qed.
Definition wbInit : fstate := fInit 1 [[wbReq "cat"]] 1 1 (revShards (wbMid true)).
Definition wbTurns : list flabel := driven 1 (rounds 40 4) wbInit.
Lemma one_request ls fs req sh : exRun 1 ls (fInit 1 [[req]] 1 1 sh) = Some fs → length (fReqs fs) = 1%nat → (fReqs fs).*1 = [req].
Proof.
  intros Hr Hl. pose proof (fi_todos _ _ _ _ (finv_run _ _ _ _ _ _ _ _ _ (finv_init 1 [[req]] 1 1 sh) Hr)) as HT.
  destruct (fReqs fs) as [|[r t] [|]]; [discriminate Hl| |discriminate Hl]. cbn in *.
  assert (r ∈ [req]) as ->%elem_of_list_singleton; [|reflexivity]. rewrite <- HT. apply elem_of_app. right. left.
Qed.
Example C102_case rf : ∃ s0, Init (optsF 2) = Some s0 ∧ (∀ w, exUnbox (exBox w) = Some w) ∧ valid_range exX ∧
  wbRead = [("Cat", mkWSF 864000 7 3); ("Cat dog", mkWSF 86399 3 7); ("Dog", mkWSF 86400 2 3); ("Dog dog cat", mkWSF 172800 9 11)] ∧
  weiboProg exBox exX ∅ (gse 1) wbRead = Some wbProg ∧
  pipe_reach hash0 1 false rf PropPipe.cap1 1 [pipeProg wbProg] (wbEnd rf) ∧ quiescent (wbEnd rf) ∧
  engine_shards stableSort s0 false 1 (wbEnd rf) (revShards (wbEnd rf)) ∧
  Tokens exX ∅ (gse 1) "cat" [] = ["cat"] ∧
  wbShown "cat" (wbEnd rf) = Some [(zs [2; 0; 9; 11], "Dog dog cat"); (zs [0; 1; 3; 7], "Cat dog")] ∧
  wbShown "dog" (wbEnd rf) = Some [(zs [2; 1; 9; 11], "Dog dog cat"); (zs [1; 1; 2; 3], "Dog"); (zs [0; 1; 3; 7], "Cat dog")].
Proof.
  destruct (Init (optsF 2)) as [s0|] eqn:EI; [|discriminate EI]. exists s0. split; [reflexivity|]. split; [exact exUnbox_ok|].
  split; [exact exX_range|]. split; [vm_compute; reflexivity|]. split; [vm_compute; reflexivity|]. split; [exact (proj2 (wb_reach rf))|].
  split; [apply quiescentb_ok; destruct rf; vm_compute; reflexivity|].
  split; [apply revShards_ok; [exact EI|destruct rf; vm_compute; reflexivity]|].
  split; [vm_compute; reflexivity|]. split; destruct rf; vm_compute; reflexivity.
Qed.
Example C102_case_at_any_time : ∃ s0 ls fs ans t0, Init (optsF 2) = Some s0 ∧
  exRun 1 ls (fInit 1 [[wbReq "cat"]] 1 1 (revShards (wbMid true))) = Some fs ∧
  written_by (pipeStep hash0 1 false true PropPipe.cap1) (pipeInit 1 1 [pipeProg wbProg]) stableSort s0 false 1 (fWorlds fs) [wbMid true] ∧
  ans ∈ fAnswers fs ∧ fReqs fs !! faSearch ans = Some (wbReq "cat", t0) ∧
  map (λ h, (sdDocId h, sdContent h)) <$> rsDocs (faResp ans) = Some [("1", "Cat dog")].
Proof.
  destruct (Init (optsF 2)) as [s0|] eqn:EI; [|discriminate EI].
  assert (HC : match exRun 1 wbTurns wbInit with
    | Some fs => fWorlds fs = [revShards (wbMid true)] ∧
        match fAnswers fs with
        | [ans] => faSearch ans = O ∧ map (λ h, (sdDocId h, sdContent h)) <$> rsDocs (faResp ans) = Some [("1", "Cat dog")]
        | _ => False
        end ∧ length (fReqs fs) = 1%nat
    | None => False end) by (vm_compute; split; [reflexivity|split; [split; reflexivity|reflexivity]]).
  destruct (exRun 1 wbTurns wbInit) as [fs|] eqn:E; [|destruct HC]. destruct HC as (H1 & H2 & H3).
  destruct (fAnswers fs) as [|ans [|]] eqn:EA; [destruct H2| |destruct H2]. destruct H2 as [H2 H4].
  pose proof (one_request wbTurns fs (wbReq "cat") _ E H3) as HR.
  destruct (fReqs fs) as [|[r t0] l] eqn:ER; [discriminate HR|]. cbn in HR. injection HR as -> _.
  exists s0, wbTurns, fs, ans, t0. split; [reflexivity|]. split; [exact E|]. split.
  - rewrite H1. refine (written_one _ _ _ _ _ _ _ _ (proj1 (wb_reach true)) _). apply revShards_ok; [exact EI|vm_compute; reflexivity].
  - rewrite EA, ER, H2. split; [left|]. split; [reflexivity|exact H4].
Qed.

(** Claims one might make about the program, and that are false. The first weibo of the file
    is indexed under the reserved id "0" and never printed: *)
Theorem C102_first_weibo_printed_refuted : ∃ s0 w doc shown, Init (optsF 2) = Some s0 ∧
  pipe_reach hash0 1 false true PropPipe.cap1 1 [pipeProg wbProg] (wbEnd true) ∧ quiescent (wbEnd true) ∧
  engine_shards stableSort s0 false 1 (wbEnd true) (revShards (wbEnd true)) ∧
  weibo_doc exBox exX ∅ (gse 1) wbRead 0 w doc ∧ (∀ t, t ∈ Tokens exX ∅ (gse 1) "cat" [] → t ∈ Text <$> Keywords doc) ∧
  wbShown "cat" (wbEnd true) = Some shown ∧ w.1 ∉ snd <$> shown.
Proof.
  destruct (C102_case true) as (s0 & HI & _ & _ & _ & _ & R & Q & E & _ & S & _).
  exists s0, ("Cat", mkWSF 864000 7 3), (mkDoc "0" (f32_of_Z 1) [mkKw "cat" (f32_of_Z 1) [0]]). eexists.
  split; [exact HI|]. split; [exact R|]. split; [exact Q|]. split; [exact E|].
  split; [split; vm_compute; reflexivity|]. split. { intros t Ht. change (Tokens exX ∅ (gse 1) "cat" []) with ["cat"] in Ht. exact Ht. }
  split; [exact S|]. apply (bool_decide_unpack _). vm_compute. exact I.
Qed.
Print Assumptions C102_first_weibo_printed_refuted.
(** The program searches when Flush has returned; then a ranker may still be at work. *)
Theorem C102_complete_after_flush_refuted : ∃ s0 w doc shown, Init (optsF 2) = Some s0 ∧
  pipe_reach hash0 1 false true PropPipe.cap1 1 [pipeProg wbProg] (wbMid true) ∧ returned 0 (wbMid true) ∧
  engine_shards stableSort s0 false 1 (wbMid true) (revShards (wbMid true)) ∧
  weibo_doc exBox exX ∅ (gse 1) wbRead 3 w doc ∧ (∀ t, t ∈ Tokens exX ∅ (gse 1) "cat" [] → t ∈ Text <$> Keywords doc) ∧
  wbShown "cat" (wbMid true) = Some shown ∧ w.1 ∉ snd <$> shown.
Proof.
  destruct (Init (optsF 2)) as [s0|] eqn:EI; [|discriminate EI].
  exists s0, ("Dog dog cat", mkWSF 172800 9 11), (default (mkDoc "" f_zero []) (segDoc exX ∅ (gse 1) "3" (mkData "Dog dog cat" INil [] [] (exBox (mkWSF 172800 9 11))))).
  exists [(zs [0; 1; 3; 7], "Cat dog")].
  split; [reflexivity|]. split; [exact (proj1 (wb_reach true))|]. split; [apply returnedb_ok; vm_compute; reflexivity|].
  split; [apply revShards_ok; [exact EI|vm_compute; reflexivity]|].
  split; [split; vm_compute; reflexivity|].
  split. { intros t Ht. change (Tokens exX ∅ (gse 1) "cat" []) with ["cat"] in Ht. apply elem_of_list_singleton in Ht as ->. apply (bool_decide_unpack _). vm_compute. exact I. }
  split; [vm_compute; reflexivity|]. apply (bool_decide_unpack _). vm_compute. exact I.
Qed.
Print Assumptions C102_complete_after_flush_refuted.
(** A long line ends the reading of the file, without a message. *)
Fixpoint doubled (k : nat) (s : string) : string := match k with O => s | S k' => doubled k' (s +:+ s) end.
Definition longFile : string := (doubled 16 "x" +:+ newline +:+ wbLine "1" "1" "Cat")%string.
Definition shortLine : string := "id||||1||||x||||user||||1||||p||||q||||r||||s||||Cat".
Lemma longFile_read : (match Split longFile newline with [_; l; _] => seqb l shortLine | _ => false end) = true ∧ readWeibo (scanLines longFile) = [].
Proof. split; vm_compute; reflexivity. Qed.
Lemma second_in {l : list string} {s} : (match l with [_; x; _] => seqb x s | _ => false end) = true → s ∈ l.
Proof. destruct l as [|a [|x [|b [|]]]]; try done. intros ->%String.eqb_eq. right. left. Qed.
Lemma shortLine_ok : weibo_line shortLine "1" "1" "Cat".
Proof. split; [done|]. exists "id", "x", "user", "p", "q", "r", "s". apply split_lem; [done|]. vm_compute. reflexivity. Qed.
Lemma long_gen file : (match Split file newline with [_; l; _] => seqb l shortLine | _ => false end) = true ∧ readWeibo (scanLines file) = [] →
  ∃ file l ts rp text, l ∈ Split file newline ∧ weibo_line l ts rp text ∧ readWeibo (scanLines file) = [].
Proof. intros [H1 H2]. exists file, shortLine, "1", "1", "Cat". exact (conj (second_in H1) (conj shortLine_ok H2)). Qed.
Theorem C102_reads_every_weibo_refuted : ∃ file l ts rp text, l ∈ Split file newline ∧ weibo_line l ts rp text ∧
  readWeibo (scanLines file) = [].
Proof. exact (long_gen longFile longFile_read). Qed.
Print Assumptions C102_reads_every_weibo_refuted.
(** Numbers of reposts from 2^24 on are rounded: the order is lost. *)
Theorem C102_order_of_large_numbers_refuted : ∃ x w1 w2 b, TokenProximity x <= 150 ∧ whole_part (BM25 x) b ∧ small b ∧
  0 <= wsTime w1 < 2 ^ 32 ∧ 0 <= wsTime w2 < 2 ^ 32 ∧ 0 <= wsReposts w1 < 2 ^ 32 ∧ 0 <= wsReposts w2 < 2 ^ 32 ∧
  small (wsLen w1) ∧ small (wsLen w2) ∧ weibo_above w1 b w2 b ∧
  ¬ ranks_above (weiboScore (λ _, 0) exUnbox x (exBox w1)) (weiboScore (λ _, 0) exUnbox x (exBox w2)).
Proof.
  exists (mkIDoc "" f_zero 0 [] []), (mkWSF 0 16777217 1), (mkWSF 0 16777216 1), 0.
  repeat (split; [done|]). split; [right; split; [done|]; right; split; [done|]; left; done|].
  vm_compute. intros H. repeat match goal with H : ranks_above _ _ |- _ => inversion H; clear H; subst; try done end.
Qed.
Print Assumptions C102_order_of_large_numbers_refuted.
