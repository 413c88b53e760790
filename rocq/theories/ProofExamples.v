(** Proofs about the example programs. *)
From Coq Require Import Floats.SpecFloat.
From Verif Require Import ModelExamples ModelFlight SpecIndexer SpecSearch SpecLogic SpecRank SpecRoute SpecPipe SpecSegment SpecEngine SpecFlight SpecEnd SpecFits SpecBM25 SpecScored
  SpecDuring SpecDeadline SpecWhole SpecExamples
  ProofFloat ProofMag ProofBM25 ProofSortBy ProofEnd ProofFits ProofScored ProofReserved ProofSegEnd ProofWholeThms ProofDuring ProofDeadline ProofNumbers.

(** * Split *)
Lemma sapp_cons c a b : (String c a +:+ b)%string = String c (a +:+ b)%string.
Proof. reflexivity. Qed.
Lemma sapp_nil b : ("" +:+ b)%string = b.
Proof. reflexivity. Qed.
Lemma slen_app a b : String.length (a +:+ b)%string = (String.length a + String.length b)%nat.
Proof. induction a as [|c a IH]; [done|]. rewrite sapp_cons. cbn. by rewrite IH. Qed.
Lemma prefix_iff sep s : String.prefix sep s = true ↔ ∃ b, s = (sep +:+ b)%string.
Proof.
  revert s. induction sep as [|c sep IH]; intros s; cbn [String.prefix].
  - split; [by exists s|by destruct s].
  - destruct s as [|c' s]; [split; [done|by intros [b E]]|]. cbn.
    destruct (Ascii.ascii_dec c c') as [<-|Hne].
    + rewrite IH. split; intros [b E]; exists b; [by rewrite E|]. rewrite sapp_cons in E. by injection E.
    + split; [done|]. intros [b E]. rewrite sapp_cons in E. by injection E.
Qed.
Fixpoint sdrop (k : nat) (s : string) : string :=
  match k, s with S k, String _ r => sdrop k r | _, _ => s end.
Lemma split_skip sep : ∀ k s, splitFrom sep k s = splitFrom sep 0 (sdrop k s).
Proof. induction k as [|k IH]; intros [|c s]; [done..|]. cbn [splitFrom sdrop]. apply IH. Qed.
Lemma sdrop_app a b : sdrop (String.length a) (a +:+ b)%string = b.
Proof. induction a as [|c a IH]; [by destruct b|]. rewrite sapp_cons. cbn. exact IH. Qed.
Lemma no_empty sep a b : sep ≠ "" → "" ≠ (a +:+ sep +:+ b)%string.
Proof. intros Hs. destruct a as [|c a]; [|rewrite sapp_cons; done]. rewrite sapp_nil. by destruct sep. Qed.
Lemma split_fields sep : sep ≠ "" → ∀ n s, (String.length s <= n)%nat → fields sep s (splitFrom sep 0 s).
Proof.
  intros Hsep. induction n as [|n IH]; intros s Hs.
  { destruct s as [|c s]; [|cbn in Hs; lia]. constructor. intros a b. by apply no_empty. }
  destruct s as [|c s]; [constructor; intros a b; by apply no_empty|].
  cbn [splitFrom]. destruct (String.prefix sep (String c s)) eqn:Hp.
  - apply prefix_iff in Hp as [b Hb]. destruct sep as [|c' sep]; [done|]. rewrite sapp_cons in Hb. injection Hb as <- ->.
    rewrite split_skip. replace (String.length (String c sep) - 1)%nat with (String.length sep) by (cbn; lia).
    rewrite sdrop_app. apply fields_more with b; [split; [done|intros; cbn; lia]|]. apply IH. cbn in Hs.
    rewrite slen_app in Hs. lia.
  - assert (Hno : ∀ b, String c s ≠ (sep +:+ b)%string).
    { intros b E. assert (String.prefix sep (String c s) = true) by (apply prefix_iff; by exists b). congruence. }
    assert (HF := IH s ltac:(cbn in Hs; lia)). destruct HF as [s Hlast|s a b l [Hc Hmin] Hl].
    + apply fields_last. intros a b E. destruct a as [|c' a]; [by apply (Hno b)|]. rewrite sapp_cons in E. injection E as <- E. by apply (Hlast a b).
    + apply fields_more with b; [|done]. split; [by rewrite Hc|]. intros a' b' E.
      destruct a' as [|c' a']; [by destruct (Hno b')|]. rewrite sapp_cons in E. injection E as <- E. cbn. apply le_n_S. by eapply Hmin.
Qed.
Lemma sapp_inj_l a b b' : (a +:+ b)%string = (a +:+ b')%string → b = b'.
Proof. induction a as [|c a IH]; [done|]. rewrite !sapp_cons. intros [= E]. by apply IH. Qed.
Lemma sapp_inj a a' b b' : String.length a = String.length a' → (a +:+ b)%string = (a' +:+ b')%string → a = a' ∧ b = b'.
Proof.
  revert a'. induction a as [|c a IH]; intros [|c' a'] El E; try (cbn in El; lia); [done|].
  rewrite !sapp_cons in E. injection E as -> E. injection El as El. by destruct (IH a' El E) as [-> ->].
Qed.
Lemma fields_det sep s l1 : fields sep s l1 → ∀ l2, fields sep s l2 → l1 = l2.
Proof.
  induction 1 as [s Hn|s a b l [Hc Hm] Hf IH]; intros l2 H2; inversion H2 as [s' Hn'|s' a' b' l' [Hc' Hm'] Hf']; subst; [done|..].
  - by destruct (Hn a' b').
  - by destruct (Hn' a b).
  - assert (El : String.length a = String.length a').
    { specialize (Hm _ _ Hc'). specialize (Hm' _ _ eq_refl). lia. }
    apply sapp_inj in Hc' as [-> ->%sapp_inj_l]; [|done]. f_equal. by apply IH.
Qed.
Lemma split_lem sep s l : sep ≠ "" → fields sep s l ↔ l = Split s sep.
Proof.
  intros Hs. pose proof (split_fields sep Hs _ s (Nat.le_refl _)) as H. split; [|by intros ->].
  intros Hl. by eapply fields_det.
Qed.

Lemma dropCR_lem l : without_cr l (dropCR l).
Proof.
  unfold without_cr. induction l as [|c l IH]; [right; split; [done|]; by intros [|]|].
  destruct l as [|c2 l].
  - cbn [dropCR]. destruct (Ascii.eqb c returnSign) eqn:E; [apply Ascii.eqb_eq in E as ->; by left|]. right. split; [done|].
    intros [|a r] H; [injection H as ->; done|]. rewrite sapp_cons in H. injection H as _ H. by destruct r.
  - change (dropCR (String c (String c2 l))) with (String c (dropCR (String c2 l))). rewrite !sapp_cons.
    destruct IH as [IH|[IH1 IH2]]; [left; by rewrite <- IH|]. right. split; [by rewrite <- IH1|].
    intros [|a r] H; [discriminate H|]. rewrite sapp_cons in H. injection H as _ H. by apply (IH2 r).
Qed.
Lemma scan_lem file pieces : fields newline file pieces → scanned pieces (scanLines file).
Proof.
  intros H. apply split_lem in H as Hp; [|done]. unfold scanLines. rewrite <- Hp.
  assert (pieces ≠ []) as Hne by by inversion H. clear H Hp file. unfold strlen. revert Hne.
  induction pieces as [|l ps IH]; intros Hne; [done|]. destruct ps as [|l2 ps].
  - cbn [scanTokens]. destruct (seqb l "") eqn:E; [apply String.eqb_eq in E as ->; constructor|]. apply String.eqb_neq in E.
    unfold strlen. destruct (_ <? _) eqn:El; [apply Z.ltb_lt in El; constructor; [done|done|apply dropCR_lem]|apply Z.ltb_ge in El; by constructor].
  - change (scanTokens (l :: l2 :: ps)) with (if strlen l <? 65536 then dropCR l :: scanTokens (l2 :: ps) else []).
    unfold strlen. destruct (_ <? _) eqn:El; [apply Z.ltb_lt in El; constructor; [done|done|apply dropCR_lem|by apply IH]|apply Z.ltb_ge in El; by constructor].
Qed.

(** * Numbers *)
Lemma digit_char_digit d : (d < 10)%nat → digit (digit_char d) = Some (Z.of_nat d).
Proof. intros H. do 10 (destruct d as [|d]; [done|]). lia. Qed.
Lemma digit_range c d : digit c = Some d → 0 <= d < 10.
Proof. unfold digit. destruct (_ && _) eqn:E; [|done]. intros [= <-]. apply andb_true_iff in E as [?%Z.leb_le ?%Z.leb_le]. lia. Qed.
Lemma decimal_mono acc s z : decimal acc s z → 0 <= acc → acc <= z.
Proof. induction 1; intros; lia. Qed.
Lemma uint_num mx acc s v : 0 <= acc <= mx → decimal acc s v → uintDigits mx acc s = Z.min v mx.
Proof.
  intros Ha Hd. induction Hd as [acc|acc d s z Hlt Hd IH]; cbn [uintDigits]; [lia|].
  rewrite digit_char_digit by done. destruct (_ >? mx) eqn:E.
  - apply Z.gtb_lt in E. pose proof (decimal_mono _ _ _ Hd). lia.
  - rewrite Z.gtb_ltb in E. apply Z.ltb_ge in E. apply IH. lia.
Qed.
Lemma uint_range mx acc s : 0 <= acc <= mx → 0 <= uintDigits mx acc s <= mx.
Proof.
  revert acc. induction s as [|c s IH]; intros acc Ha; cbn [uintDigits]; [done|]. destruct (digit c) as [d|] eqn:E; [|lia].
  apply digit_range in E. destruct (_ >? mx) eqn:G; [lia|]. rewrite Z.gtb_ltb in G. apply Z.ltb_ge in G. apply IH. lia.
Qed.
Lemma ParseUint_num mx s : 0 <= mx → num mx s (ParseUint mx s).
Proof. intros Hm. split; [apply uint_range; lia|]. intros v Hv. apply uint_num; [lia|done]. Qed.

Lemma readWeibo_lem lines : weibos lines (readWeibo lines).
Proof.
  induction lines as [|l lines IH]; [constructor|]. unfold readWeibo in *. cbn [omap list_omap].
  assert (HF : fields "||||" l (Split l "||||")) by by apply split_lem.
  assert (Hskip : (∀ f0 ts f2 f3 rp f5 f6 f7 f8 text, Split l "||||" = [f0; ts; f2; f3; rp; f5; f6; f7; f8; text] → text = "") →
    ∀ ts rp text, ¬ weibo_line l ts rp text).
  { intros H ts rp text (Ht & f0 & f2 & f3 & f5 & f6 & f7 & f8 & Hf). apply Ht.
    apply split_lem in Hf; [|done]. symmetry in Hf. by eapply H. }
  destruct (Split l "||||") as [|f0 [|ts [|f2 [|f3 [|rp [|f5 [|f6 [|f7 [|f8 [|text [|]]]]]]]]]]] eqn:E;
    try (apply weibos_skip; [apply Hskip; by intros|exact IH]).
  destruct (seqb text "") eqn:Et.
  - apply weibos_skip; [|exact IH]. apply Hskip. intros. simplify_eq. by apply String.eqb_eq.
  - apply weibos_take with ts rp; [|apply ParseUint_num; lia|apply ParseUint_num; lia|exact IH].
    split; [by apply String.eqb_neq|]. by exists f0, f2, f3, f5, f6, f7, f8.
Qed.

(** * Itoa and Atoi *)
Lemma digit_pretty x : (x < 10)%N → digit (pretty_N_char x) = Some (Z.of_N x).
Proof. intros H. assert (x = 0 ∨ x = 1 ∨ x = 2 ∨ x = 3 ∨ x = 4 ∨ x = 5 ∨ x = 6 ∨ x = 7 ∨ x = 8 ∨ x = 9)%N as Hx by lia. naive_solver. Qed.
Lemma parse_go x : (0 < x)%N → Z.of_N x < 2 ^ 64 → ∀ s, parseDigits 0 (pretty_N_go x s) = parseDigits (Z.of_N x) s.
Proof.
  induction (N.lt_wf_0 x) as [x _ IH]. intros H0 Hx s. rewrite pretty_N_go_step by done.
  assert (Hd : (x `mod` 10 < 10)%N) by (apply N.mod_lt; lia).
  assert (Hdm : Z.of_N x = Z.of_N (x `div` 10) * 10 + Z.of_N (x `mod` 10)).
  { rewrite (N.div_mod' x 10) at 1. lia. }
  assert (Hstep : ∀ acc, acc = Z.of_N (x `div` 10) → parseDigits acc (String (pretty_N_char (x `mod` 10)) s) = parseDigits (Z.of_N x) s).
  { intros acc ->. cbn [parseDigits]. rewrite digit_pretty by done. cbn [mbind option_bind]. rewrite <- Hdm.
    destruct (_ >? _) eqn:E; [|done]. apply Z.gtb_lt in E. lia. }
  destruct (decide (x `div` 10 = 0)%N) as [E|E].
  - rewrite E, pretty_N_go_0. apply Hstep. by rewrite E.
  - assert ((0 < x `div` 10)%N ∧ Z.of_N (x `div` 10) < 2 ^ 64) as [? ?].
    { clear -E Hdm Hx. revert E Hdm. generalize (x `div` 10)%N (x `mod` 10)%N. intros. lia. }
    rewrite IH; [by apply Hstep|by apply N.div_lt|done|done].
Qed.
Lemma go_sign x s c : c = minusSign ∨ c = plusSign → (0 < x)%N → ∀ r, pretty_N_go x s ≠ String c r.
Proof.
  intros Hc. revert s. induction (N.lt_wf_0 x) as [x _ IH]. intros s H0 r. rewrite pretty_N_go_step by done.
  destruct (decide (x `div` 10 = 0)%N) as [E|E].
  - rewrite E, pretty_N_go_0. intros [= Hh _]. revert Hh. unfold pretty_N_char. destruct Hc as [-> | ->]; repeat case_match; done.
  - apply IH; [by apply N.div_lt|]. revert E. generalize (x `div` 10)%N. clear. intros. lia.
Qed.
Lemma Atoi_pretty (i : nat) : Z.of_nat i < 2 ^ 63 → Atoi (pretty i) = Z.of_nat i.
Proof.
  intros Hi. destruct (decide (i = 0%nat)) as [->|Hne]; [done|].
  change (pretty i) with (pretty (N.of_nat i)). unfold pretty, pretty_N. rewrite decide_False by lia.
  assert (H0 : (0 < N.of_nat i)%N) by lia. pose proof (parse_go _ H0 ltac:(lia) "") as Hp. cbn [parseDigits] in Hp.
  pose proof (go_sign (N.of_nat i) "" minusSign ltac:(by left) H0) as Hm. pose proof (go_sign (N.of_nat i) "" plusSign ltac:(by right) H0) as Hs.
  unfold Atoi. destruct (pretty_N_go (N.of_nat i) "") as [|c r] eqn:E; [cbn in Hp; injection Hp; lia|].
  destruct (Ascii.eqb c minusSign) eqn:E1; [apply Ascii.eqb_eq in E1; subst; by destruct (Hm r)|].
  destruct (Ascii.eqb c plusSign) eqn:E2; [apply Ascii.eqb_eq in E2; subst; by destruct (Hs r)|].
  unfold parseUint. rewrite Hp. destruct (_ >=? _) eqn:G; [|lia]. rewrite Z.geb_leb in G. apply Z.leb_le in G. lia.
Qed.

(** * Whole numbers as floats *)
Lemma of_Z_number z : f_eqb (f32_of_Z z) (f32_of_Z z) = true.
Proof.
  assert (H : f32_of_Z z ≠ S754_nan).
  { unfold f32_of_Z, binary_normalize. destruct z as [|p|p]; [done|..].
    - destruct (round_eq false p 0) as (m' & e' & -> & _). pose proof (aux_sign false (Zpos m') e' loc_Exact ltac:(lia)) as H.
      by destruct (binary_round_aux _ _ _ _ _ _).
    - destruct (round_eq true p 0) as (m' & e' & -> & _). pose proof (aux_sign true (Zpos m') e' loc_Exact ltac:(lia)) as H.
      by destruct (binary_round_aux _ _ _ _ _ _). }
  unfold f_eqb, SFeqb. destruct (f32_of_Z z) as [|s| |s m e]; [done|by destruct s|done|].
  cbn [SFcompare]. assert (Hp : ∀ p, Pos.compare_cont Eq p p = Eq) by (intros p; apply Pos.compare_refl).
  destruct s; by rewrite Z.compare_refl, Hp.
Qed.
Lemma of_Z_lt a b : 0 <= a < b → b < 2 ^ 24 → SFcompare (f32_of_Z a) (f32_of_Z b) = Some Lt.
Proof.
  intros Ha Hb. rewrite (f32_of_Z_canon b) by lia. destruct (canon_form b) as (q & Hq & -> & Hq1 & Hq2); [lia|].
  destruct (Z.eq_dec a 0) as [->|Hne]; [by rewrite f32_of_Z_0|].
  rewrite (f32_of_Z_canon a) by lia. destruct (canon_form a) as (p & Hp & -> & Hp1 & Hp2); [lia|].
  cbn [SFcompare]. assert (Hle : Z.log2 a <= Z.log2 b) by (apply Z.log2_le_mono; lia).
  destruct (Z.compare_spec (Z.log2 a + 1 - 24) (Z.log2 b + 1 - 24)) as [E|E|E]; [|done|lia].
  assert (El : Z.log2 a = Z.log2 b) by lia. rewrite El in Hp. change (Pos.compare_cont Eq p q) with (p ?= q)%positive.
  assert (Hlt : (p < q)%positive); [|apply Pos.compare_lt_iff in Hlt; by rewrite Hlt].
  assert (Zpos p < Zpos q); [|lia]. rewrite <- Hp, <- Hq. apply Z.mul_lt_mono_pos_r; [apply Z.pow_pos_nonneg; lia|lia].
Qed.
Lemma of_Z_gt a b : 0 <= b < a → a < 2 ^ 24 → SFcompare (f32_of_Z a) (f32_of_Z b) = Some Gt.
Proof.
  intros Hb Ha. rewrite (f32_of_Z_canon a) by lia. destruct (canon_form a) as (q & Hq & -> & Hq1 & Hq2); [lia|].
  destruct (Z.eq_dec b 0) as [->|Hne]; [by rewrite f32_of_Z_0|].
  rewrite (f32_of_Z_canon b) by lia. destruct (canon_form b) as (p & Hp & -> & Hp1 & Hp2); [lia|].
  cbn [SFcompare]. assert (Hle : Z.log2 b <= Z.log2 a) by (apply Z.log2_le_mono; lia).
  destruct (Z.compare_spec (Z.log2 a + 1 - 24) (Z.log2 b + 1 - 24)) as [E|E|E]; [|lia|done].
  assert (El : Z.log2 b = Z.log2 a) by lia. rewrite El in Hp. change (Pos.compare_cont Eq q p) with (q ?= p)%positive.
  assert (Hlt : (q > p)%positive); [|unfold Pos.gt in Hlt; by rewrite Hlt].
  assert (Zpos p < Zpos q); [|lia]. rewrite <- Hp, <- Hq. apply Z.mul_lt_mono_pos_r; [apply Z.pow_pos_nonneg; lia|lia].
Qed.
Lemma of_Z_cmp a b : small a → small b → SFcompare (f32_of_Z a) (f32_of_Z b) = Some (a ?= b).
Proof.
  intros Ha Hb. destruct (Z.compare_spec a b) as [->|H|H].
  - pose proof (of_Z_number b) as H. unfold f_eqb, SFeqb in H. destruct (SFcompare _ _) as [[]|]; done.
  - apply of_Z_lt; unfold small in *; lia.
  - apply of_Z_gt; unfold small in *; lia.
Qed.
Lemma gtb_of_Z a b : small a → small b → f_gtb (f32_of_Z a) (f32_of_Z b) = true ↔ b < a.
Proof. intros Ha Hb. unfold f_gtb, SFltb. rewrite of_Z_cmp by done. destruct (Z.compare_spec b a); split; (lia || done). Qed.
Lemma eqb_of_Z a b : small a → small b → f_eqb (f32_of_Z a) (f32_of_Z b) = true ↔ b = a.
Proof. intros Ha Hb. unfold f_eqb, SFeqb. rewrite of_Z_cmp by done. destruct (Z.compare_spec a b); split; (lia || done). Qed.
Lemma above_cons a b l k : small a → small b →
  ranks_above (f32_of_Z a :: l) (f32_of_Z b :: k) ↔ b < a ∨ b = a ∧ ranks_above l k.
Proof.
  intros Ha Hb. split.
  - inversion 1; subst; [left; by apply gtb_of_Z|right; split; [by apply eqb_of_Z|done]].
  - intros [H|[H1 H2]]; [apply above_here; by apply gtb_of_Z|apply above_later; [by apply eqb_of_Z|done]].
Qed.
Lemma above_nil : ¬ ranks_above [] [].
Proof. by inversion 1. Qed.

(** * The scores of examples/weibo *)
Section Weibo.
  Context (cvt : F → Z) (boxW : WSF → Iface) (asWSF : Iface → option WSF) (Hbox : ∀ w, asWSF (boxW w) = Some w).
  Lemma weibo_numbers x f : nan_free (weiboScore cvt asWSF x f).
  Proof.
    unfold weiboScore. destruct (_ >? _); [constructor|]. destruct (asWSF f); [|constructor]. repeat constructor; apply of_Z_number.
  Qed.
  Lemma weibo_score_box x w : TokenProximity x <= 150 → weiboScore cvt asWSF x (boxW w) = weibo_scores cvt w x.
  Proof. intros Hx. unfold weiboScore. rewrite Hbox. destruct (_ >? _) eqn:E; [|done]. apply Z.gtb_lt in E. lia. Qed.
  Lemma weibo_far x f : 150 < TokenProximity x → weiboScore cvt asWSF x f = [].
  Proof. intros Hx. unfold weiboScore. destruct (_ >? _) eqn:E; [done|]. rewrite Z.gtb_ltb in E. apply Z.ltb_ge in E. lia. Qed.
  Lemma f_int_whole x z : whole_part x z → Z.abs z < 2 ^ 63 → f_int cvt x = z.
  Proof.
    destruct x as [s| | |s m e]; [by intros ->|done|done|]. cbn [whole_part f_int]. intros (H0 & H1 & H2) Hz.
    assert (Hv : (if 0 <=? e then Zpos m * 2 ^ e else Zpos m / 2 ^ (- e)) = if s then - z else z).
    { destruct (0 <=? e) eqn:E.
      - apply Z.leb_le in E. rewrite (Z.max_l 0 (- e)), (Z.max_r 0 e) in H1, H2 by lia. change (2 ^ 0) with 1 in *. lia.
      - apply Z.leb_gt in E. rewrite (Z.max_r 0 (- e)), (Z.max_l 0 e) in H1, H2 by lia. change (2 ^ 0) with 1 in *.
        assert (0 < 2 ^ (- e)) by (apply Z.pow_pos_nonneg; lia).
        symmetry; apply Z.div_unique_pos with (Zpos m - (if s then - z else z) * 2 ^ (- e)); destruct s; lia. }
    rewrite Hv. destruct (_ <? 2 ^ 63) eqn:E; [by destruct s; lia|]. apply Z.ltb_ge in E. destruct s; lia.
  Qed.
  Lemma weibo_order x1 w1 b1 x2 w2 b2 : TokenProximity x1 <= 150 → TokenProximity x2 <= 150 →
    whole_part (BM25 x1) b1 → whole_part (BM25 x2) b2 →
    0 <= wsTime w1 < 2 ^ 32 → 0 <= wsTime w2 < 2 ^ 32 → small b1 → small b2 →
    small (wsReposts w1) → small (wsReposts w2) → small (wsLen w1) → small (wsLen w2) →
    ranks_above (weiboScore cvt asWSF x1 (boxW w1)) (weiboScore cvt asWSF x2 (boxW w2)) ↔ weibo_above w1 b1 w2 b2.
  Proof.
    intros H1 H2 B1 B2 T1 T2 S1 S2 R1 R2 L1 L2. rewrite !weibo_score_box by done. unfold weibo_scores.
    rewrite (f_int_whole _ _ B1), (f_int_whole _ _ B2) by (unfold small in *; lia).
    assert (HT : ∀ t, 0 <= t < 2 ^ 32 → small (t / 86400)).
    { intros t Ht. split; [apply Z.div_pos; lia|]. apply Z.div_lt_upper_bound; lia. }
    rewrite !above_cons by (try done; by apply HT). unfold weibo_above.
    assert (Hn : ranks_above [] [] ↔ False) by (split; [apply above_nil|done]). rewrite Hn. tauto.
  Qed.
End Weibo.

(** * The calls of examples/weibo *)
Section Calls.
  Context (boxW : WSF → Iface) (X : Ext) (stop : gset string) (so : SegOpts) (HX : valid_range X).
  Notation calls := (weiboCalls boxW X stop so).
  Notation wcall_of w doc := (WIndex doc (mkData w.1 INil [] [] (boxW w.2)) false).
  Lemma calls_elem ws : ∀ k cs c, calls k ws = Some cs → c ∈ cs ↔
    ∃ i w doc, ws !! i = Some w ∧ segDoc X stop so (pretty (k + i)%nat) (mkData w.1 INil [] [] (boxW w.2)) = Some doc ∧ c = wcall_of w doc.
  Proof.
    induction ws as [|w ws IH]; intros k cs c; cbn [weiboCalls].
    { intros [= <-]. rewrite elem_of_nil. split; [done|]. by intros (i & w & doc & H & _). }
    unfold weiboCall, weiboData. destruct (segDoc X stop so (pretty k) _) as [doc|] eqn:E; [|done]. cbn [mbind option_bind].
    destruct (calls (S k) ws) as [cs'|] eqn:E'; [|done]. intros [= <-]. rewrite elem_of_cons, (IH (S k) cs' c E'). split.
    - intros [->|(i & w' & doc' & H1 & H2 & H3)].
      + exists O, w, doc. rewrite Nat.add_0_r. done.
      + exists (S i), w', doc'. rewrite <- plus_n_Sm. done.
    - intros ([|i] & w' & doc' & H1 & H2 & H3).
      + left. injection H1 as <-. rewrite Nat.add_0_r, E in H2. by injection H2 as <-.
      + right. exists i, w', doc'. by rewrite <- plus_n_Sm in H2.
  Qed.
  Lemma pretty_nat_inj (i j : nat) : pretty i = pretty j → i = j.
  Proof. change (pretty (N.of_nat i) = pretty (N.of_nat j) → i = j). intros H%(inj pretty). lia. Qed.
  Lemma calls_ids ws : ∀ k cs, calls k ws = Some cs → omap call_id (pipeCall <$> cs) = pretty <$> seq k (length ws).
  Proof.
    induction ws as [|w ws IH]; intros k cs; cbn [weiboCalls]; [by intros [= <-]|].
    unfold weiboCall, weiboData. destruct (segDoc X stop so (pretty k) _) as [doc|] eqn:E; [|done]. cbn [mbind option_bind].
    destruct (calls (S k) ws) as [cs'|] eqn:E'; [|done]. intros [= <-].
    apply segDoc_good in E as [_ Hid]; [|done]. cbn [fmap list_fmap pipeCall omap list_omap call_id length seq].
    rewrite Hid. f_equal. by apply IH.
  Qed.
  Lemma prog_elem ws prog : weiboProg boxW X stop so ws = Some prog → ∀ c, c ∈ pipeProg prog ↔ c = EFlush ∨ ∃ i w doc, weibo_doc boxW X stop so ws i w doc ∧
    c = EIndex doc (boxW w.2) w.1 INil false ∧ good_doc doc ∧ DocId doc = pretty i.
  Proof.
    unfold weiboProg. destruct (calls 0 ws) as [cs|] eqn:E; [|done]. cbn [mbind option_bind]. intros [= <-] c.
    unfold pipeProg. rewrite fmap_app, elem_of_app, elem_of_list_fmap. split.
    - intros [(c' & -> & Hc)|Hc%elem_of_list_singleton]; [|by left]. right.
      apply (calls_elem ws 0 cs c' E) in Hc as (i & w & doc & H1 & H2 & ->). exists i, w, doc.
      destruct (segDoc_good _ _ _ _ _ _ HX H2) as [? ?]. done.
    - intros [->|(i & w & doc & [H1 H2] & -> & _)]; [right; by left|]. left. eexists. split; [|apply (calls_elem ws 0 cs _ E); exists i, w, doc; done]. done.
  Qed.
  Lemma ordinary_elem ws prog : weiboProg boxW X stop so ws = Some prog → ∀ c, c ∈ ordinary (pipeProg prog) ↔ c = EFlush ∨ ∃ i w doc, i ≠ O ∧ weibo_doc boxW X stop so ws i w doc ∧
    c = EIndex doc (boxW w.2) w.1 INil false ∧ good_doc doc ∧ DocId doc = pretty i ∧ DocId doc ≠ "0".
  Proof.
    intros Hp c. unfold ordinary. rewrite elem_of_list_filter, (prog_elem ws prog Hp). split.
    - intros [Hz [->|(i & w & doc & H1 & -> & H2 & H3)]]; [by left|]. right. exists i, w, doc. cbn in Hz.
      destruct (string_dec (DocId doc) "0") as [|Hne]; [done|]. split; [|done]. intros ->. by rewrite H3 in Hne.
    - intros [->|(i & w & doc & H0 & H1 & -> & H2 & H3 & H4)]; [split; [done|by left]|]. split; [|right; by exists i, w, doc].
      cbn. by destruct (string_dec (DocId doc) "0").
  Qed.
  Lemma omap_ordinary l : omap call_id (ordinary l) `sublist_of` omap call_id l.
  Proof.
    induction l as [|c l IH]; [done|]. unfold ordinary in *. rewrite filter_cons. destruct (decide (SpecPipe.not_zero c = true)); cbn [omap list_omap].
    - destruct (call_id c); [by apply sublist_skip|done].
    - destruct (call_id c); [by apply sublist_cons|done].
  Qed.
  Lemma weibo_once ws prog : weiboProg boxW X stop so ws = Some prog →
    once_each (ordinary (pipeProg prog)) ∧ Forall good_call (pipeProg prog) ∧
    ∃ ph, pipeProg prog = program [ph] ∧ good_phase (ordinary ph).
  Proof.
    intros Hp. pose proof (ordinary_elem ws prog Hp) as Ho. pose proof (prog_elem ws prog Hp) as He.
    unfold weiboProg in Hp. destruct (calls 0 ws) as [cs|] eqn:E; [|done]. cbn [mbind option_bind] in Hp. injection Hp as <-.
    assert (Hnd : NoDup (omap call_id (pipeProg cs))).
    { unfold pipeProg. rewrite (calls_ids ws 0 cs E). apply NoDup_fmap_2; [intros i j; apply pretty_nat_inj|apply NoDup_seq]. }
    assert (HP : pipeProg (cs ++ [WFlush]) = pipeProg cs ++ [EFlush]) by (unfold pipeProg; by rewrite fmap_app).
    split; [|split].
    - split.
      + apply Forall_forall. intros c [->|(i & w & doc & _ & _ & -> & H2 & _ & H4)]%Ho; [done|]. split; [done|]. cbn. congruence.
      + eapply sublist_NoDup; [|apply omap_ordinary]. rewrite HP, omap_app. cbn. by rewrite app_nil_r.
    - apply Forall_forall. intros c [->|(i & w & doc & _ & -> & H2 & _)]%He; done.
    - exists (pipeProg cs). split; [by rewrite HP; unfold program; cbn; rewrite app_nil_r|]. split.
      + apply Forall_forall. intros c Hc. destruct (proj1 (Ho c)) as [->|(i & w & doc & _ & _ & -> & H2 & _ & H4)]; [| |done].
        * rewrite HP. unfold ordinary in *. rewrite filter_app. apply elem_of_app. by left.
        * exfalso. unfold ordinary in Hc. apply elem_of_list_filter in Hc as [_ Hc]. unfold pipeProg in Hc. apply elem_of_list_fmap in Hc as (c & Hc1 & Hc2).
          apply (calls_elem ws 0 cs c E) in Hc2 as (i & w & doc & _ & _ & ->). done.
      + by eapply sublist_NoDup; [|apply omap_ordinary].
  Qed.
End Calls.

(** * The run of examples/weibo *)
Section Run.
  Context (cvt : F → Z) (boxW : WSF → Iface) (asWSF : Iface → option WSF) (Hbox : ∀ w, asWSF (boxW w) = Some w).
  Context (X : Ext) (stop : gset string) (so : SegOpts) (HX : valid_range X).
  Context (murmur : string → Z) (n : Z) (reqsFirst : bool) (cap : chan → nat) (Hn : 1 <= n < 2 ^ 32).
  Lemma show_lem ws toks late num out : zlen ws < 2 ^ 63 →
    (∀ h, h ∈ out → ∃ i w, sdDocId h = pretty i ∧ ws !! i = Some w) →
    ∃ shown, weiboShow ws (mkResp toks late num (Some out)) = Some shown ∧ weibo_printed ws out shown.
  Proof.
    intros Hws. unfold weiboShow, ModelStart.SearchDoc, weibo_printed. cbn [rsDocs mbind option_bind]. induction out as [|h out IH]; intros Hh.
    - exists []. done.
    - destruct (Hh h) as (i & w & Hi & Hw); [left|]. destruct IH as (shown & E & HF); [intros; apply Hh; by right|].
      exists ((sdScores h, w.1) :: shown). split.
      + cbn [mapM]. unfold mapM in *. rewrite Hi, Atoi_pretty; [|apply lookup_lt_Some in Hw; unfold zlen in Hws; lia].
        rewrite zget_nat, Hw. cbn [mbind option_bind]. by rewrite E.
      + constructor; [|done]. split; [done|]. by exists i, w.
  Qed.
  Lemma weibo_wanted query doc : wanted (weiboReq cvt asWSF X stop so query) doc ↔ ∀ t, t ∈ Tokens X stop so query [] → t ∈ Text <$> Keywords doc.
  Proof.
    unfold wanted. cbn [weiboReq rqDocIds rqTokens rqLabels]. rewrite app_nil_r. split; [by intros [_ H]|by split].
  Qed.
  Lemma weibo_plain o query : Tokens X stop so query [] ≠ [] → plain_request o (weiboReq cvt asWSF X stop so query).
  Proof. intros Ht. unfold plain_request. cbn [weiboReq rqTokens rqLabels]. rewrite app_nil_r. by repeat split. Qed.
  Theorem weibo_search sortDocs sortBy o s0 nseg ws prog s shards log2 query order :
    valid_sort sortDocs → valid_sortBy sortBy → Init o = Some s0 → zlen ws < 2 ^ 63 → weiboProg boxW X stop so ws = Some prog →
    pipe_reach murmur n false reqsFirst cap nseg [pipeProg prog] s → quiescent s →
    engine_shards sortDocs s0 false n s shards → Tokens X stop so query [] ≠ [] → all_arrive (length shards) order →
    ∃ full out shown resp, Search log2 sortBy (weiboReq cvt asWSF X stop so query) shards order = Some resp ∧
      resp = mkResp (Tokens X stop so query []) false (zlen full) (Some out) ∧
      weibo_answers cvt boxW X stop so
        (λ text doc x, let i := shard_for murmur n (DocId doc) text in
           describes log2 o (shard_total shards i) (shard_docs murmur n i (ordinary (pipeProg prog))) (Tokens X stop so query []) doc x)
        ws (Tokens X stop so query []) full ∧
      Forall2 same_scores out (page 0 100 full) ∧ out ⊆+ full ∧
      weiboShow ws resp = Some shown ∧ weibo_printed ws out shown.
  Proof.
    intros Hv Hvb HI Hws Hp Hr Hq Hsh Ht Ha. destruct (weibo_once boxW X stop so HX ws prog Hp) as (Ho & Hg & ph & Eph & Hph).
    pose proof (ordinary_elem boxW X stop so HX ws prog Hp) as Hel.
    assert (Hw : Forall nothing_waits shards).
    { rewrite Eph in Hr. destruct (reserved_idle murmur n false reqsFirst cap Hn sortDocs o s0 nseg [ph] s Hv HI Hr Hq) as (sh' & H1 & H2); [by apply Forall_singleton|].
      by rewrite (shards_unique n false _ _ _ _ _ Hsh H1). }
    assert (EJ : mjoin [pipeProg prog] = pipeProg prog) by (cbn; by rewrite app_nil_r).
    edestruct (scored_search murmur n false reqsFirst cap Hn sortDocs sortBy o s0 nseg [pipeProg prog] s shards log2 (weiboReq cvt asWSF X stop so query) order)
      as (full & out & HS & A1 & A2 & A3 & A4 & A5 & A6);
      [done|done|exact HI|exact Hr|done|by rewrite EJ|exact Hsh|done|by apply weibo_plain| |done|].
    { intros d f ct a fo x _ _ _. apply weibo_numbers. }
    rewrite EJ in A5, A6. cbn [weiboReq rqOpts ScoringCriteria ReverseOrder OutputOffset MaxOutputs rqTokens] in *.
    assert (HA : ∀ h, h ∈ full → ∃ i w doc x, i ≠ O ∧ weibo_doc boxW X stop so ws i w doc ∧ (∀ t, t ∈ Tokens X stop so query [] → t ∈ Text <$> Keywords doc) ∧
       (let i := shard_for murmur n (DocId doc) w.1 in
           describes log2 o (shard_total shards i) (shard_docs murmur n i (ordinary (pipeProg prog))) (Tokens X stop so query []) doc x) ∧ TokenProximity x <= 150 ∧
       sdDocId h = pretty i ∧ sdScores h = weibo_scores cvt w.2 x ∧ sdContent h = w.1 ∧ sdFields h = boxW w.2).
    { intros h Hh. destruct (A5 h Hh) as (d & f & ct & a & fo & x & Hc & Hwd & Htold & Hsc & ->).
      apply Hel in Hc as [Hc|(i & w & doc & H0 & H1 & Hc & H2 & H3 & H4)]; [done|]. injection Hc as -> -> -> -> ->.
      exists i, w, doc, x. split; [done|]. split; [done|]. split; [by apply weibo_wanted|]. split; [exact Htold|].
      assert (Hx : TokenProximity x <= 150).
      { destruct (Z.le_gt_cases (TokenProximity x) 150); [done|]. rewrite weibo_far in Hsc; done. }
      split; [done|]. cbn [entry_for sdDocId sdScores sdContent sdFields]. destruct Htold as (kws & _ & Hid & _).
      split; [congruence|]. split; [by apply weibo_score_box|done]. }
    destruct (show_lem ws (Tokens X stop so query []) false (zlen full) out Hws) as (shown & E1 & E2).
    { intros h Hh. assert (h ∈ full) as Hf by by eapply elem_of_submseteq.
      destruct (HA h Hf) as (i & w & doc & x & _ & [? _] & _ & _ & _ & ? & _). by exists i, w. }
    exists full, out, shown. eexists. split; [exact HS|]. split; [reflexivity|]. split; [|done].
    split; [done|]. split; [done|]. split; [exact HA|].
    intros i w doc H0 Hd Htok Hx. edestruct (A6 doc (boxW w.2) w.1 INil false) as (x & Hx1 & Hx2).
    - apply Hel. right. exists i, w, doc. destruct Hd as [Hd1 Hd2]. destruct (segDoc_good _ _ _ _ _ _ HX Hd2) as [G1 G2]. repeat (split; [done|]).
      rewrite G2. intros E. apply H0. apply pretty_nat_inj. exact E.
    - by apply weibo_wanted.
    - intros x Hx1. rewrite weibo_score_box; [done|done|by apply Hx].
    - destruct Hd as [Hd1 Hd2]. destruct (segDoc_good _ _ _ _ _ _ HX Hd2) as [G1 G2]. apply elem_of_list_fmap.
      eexists. split; [|exact Hx2]. cbn. destruct Hx1 as (kws & _ & Hid & _). congruence.
  Qed.
  Lemma NoDup_filters (l : list ScoredDoc) : (∀ id, id ∈ sdDocId <$> l → (length (filter (λ h, sdDocId h = id) l) <= 1)%nat) → NoDup (sdDocId <$> l).
  Proof.
    induction l as [|h l IH]; intros H; [constructor|]. rewrite fmap_cons. constructor.
    - intros Hin. specialize (H (sdDocId h) ltac:(left)). rewrite filter_cons_True in H by done. cbn in H.
      apply elem_of_list_fmap in Hin as (h' & E & Hh). assert (h' ∈ filter (λ x, sdDocId x = sdDocId h) l) as Hf by by apply elem_of_list_filter.
      destruct (filter _ l); [by apply elem_of_nil in Hf|cbn in H; lia].
    - apply IH. intros id Hid. specialize (H id ltac:(by right)). rewrite filter_cons in H. destruct (decide _); [cbn in H; lia|done].
  Qed.
  Lemma only_call_once cs c id : NoDup (omap call_id cs) → c ∈ cs → call_id c = Some id → only_call cs id c.
  Proof.
    unfold only_call. induction cs as [|c' cs IH]; intros Hnd Hc Hid; [by apply elem_of_nil in Hc|].
    cbn [omap list_omap] in Hnd. rewrite filter_cons. apply elem_of_cons in Hc as [<-|Hc].
    - rewrite decide_True by done. f_equal. rewrite Hid in Hnd. apply NoDup_cons in Hnd as [Hni _].
      destruct (filter _ cs) as [|x l] eqn:E; [done|]. exfalso. apply Hni. assert (x ∈ filter (λ c0, call_id c0 = Some id) cs) as Hx by (rewrite E; left).
      apply elem_of_list_filter in Hx as [? ?]. apply elem_of_list_omap. by exists x.
    - destruct (decide (call_id c' = Some id)) as [E|E].
      + rewrite E in Hnd. apply NoDup_cons in Hnd as [Hni _]. exfalso. apply Hni. apply elem_of_list_omap. by exists c.
      + apply IH; [|done|done]. destruct (call_id c'); [by apply NoDup_cons in Hnd as [_ ?]|done].
  Qed.
  (** at any moment *)
  Theorem weibo_any_time sortDocs o s0 nseg ws prog log2 sortBy ccap clients tl tr shards ls fs ps ans query t0 :
    valid_sort sortDocs → Init o = Some s0 → zlen ws < 2 ^ 63 → weiboProg boxW X stop so ws = Some prog →
    frun log2 sortBy (Z.to_nat n) ccap ls (fInit (Z.to_nat n) clients tl tr shards) = Some fs →
    written_by (pipeStep murmur n false reqsFirst cap) (pipeInit n nseg [pipeProg prog]) sortDocs s0 false n (fWorlds fs) ps →
    valid_sortBy sortBy → ans ∈ fAnswers fs → fReqs fs !! faSearch ans = Some (weiboReq cvt asWSF X stop so query, t0) →
    Tokens X stop so query [] ≠ [] →
    ∃ full out shown, faResp ans = mkResp (Tokens X stop so query []) false (zlen full) (Some out) ∧
      (∀ h, h ∈ full → ∃ i w doc, i ≠ O ∧ weibo_doc boxW X stop so ws i w doc ∧ (∀ t, t ∈ Tokens X stop so query [] → t ∈ Text <$> Keywords doc) ∧
         sdDocId h = pretty i ∧ sdContent h = w.1) ∧
      NoDup (sdDocId <$> full) ∧ Forall2 same_scores out (page 0 100 full) ∧ out ⊆+ full ∧
      weiboShow ws (faResp ans) = Some shown ∧ weibo_printed ws out shown.
  Proof.
    intros Hv HI Hws Hp Hf HW Hvb Ha Hrq Ht. destruct (weibo_once boxW X stop so HX ws prog Hp) as (_ & Hg & ph & Eph & Hph).
    pose proof (prog_elem boxW X stop so HX ws prog Hp) as Hel.
    assert (EJ : mjoin [pipeProg prog] = pipeProg prog) by (cbn; by rewrite app_nil_r).
    assert (Hnd : NoDup (omap call_id (pipeProg prog))).
    { unfold weiboProg in Hp. destruct (weiboCalls boxW X stop so 0 ws) as [cs|] eqn:E; [|done]. cbn [mbind option_bind] in Hp. injection Hp as <-.
      unfold pipeProg. rewrite fmap_app, omap_app. cbn. rewrite app_nil_r, (calls_ids boxW X stop so HX ws 0 cs E).
      apply NoDup_fmap_2; [intros i j; apply pretty_nat_inj|apply NoDup_seq]. }
    destruct (during_lem murmur n false reqsFirst cap Hn sortDocs o s0 nseg [pipeProg prog] Hv HI) with
      (log2 := log2) (sortBy := sortBy) (ccap := ccap) (clients := clients) (tl := tl) (tr := tr) (shards := shards) (ls := ls) (fs := fs) (ps := ps)
      (ans := ans) (req := weiboReq cvt asWSF X stop so query) (t0 := t0) as (full & out & E & (P1 & P2 & P3) & A1 & A2);
      [by rewrite EJ|done|exact Hf|exact HW|done|done|by apply weibo_plain| |].
    { apply Forall_forall. intros w _ sh docs num x f _ _ _. apply weibo_numbers. }
    rewrite EJ in A1, A2. 
    assert (Hone : ∀ i w doc, weibo_doc boxW X stop so ws i w doc → only_call (pipeProg prog) (DocId doc) (EIndex doc (boxW w.2) w.1 INil false)).
    { intros i w doc Hd. assert (Hc : EIndex doc (boxW w.2) w.1 INil false ∈ pipeProg prog).
      { apply Hel. right. exists i, w, doc. destruct (segDoc_good _ _ _ _ _ _ HX (proj2 Hd)). done. }
      eapply only_call_once; [exact Hnd|exact Hc|done]. }
    assert (HA : ∀ h, h ∈ full → ∃ i w doc, i ≠ O ∧ weibo_doc boxW X stop so ws i w doc ∧ (∀ t, t ∈ Tokens X stop so query [] → t ∈ Text <$> Keywords doc) ∧
         sdDocId h = pretty i ∧ sdContent h = w.1).
    { intros h Hh. destruct (A1 h Hh) as (d & f & ct & a & fo & d' & f' & ct' & a' & fo' & C1 & Hwd & C2 & Hid & Hs1 & Hs2 & Hs3).
      apply Hel in C1 as [C1|(i & w & doc & D1 & C1 & D2 & D3)]; [done|]. injection C1 as -> -> -> -> ->.
      apply Hel in C2 as [C2|(i' & w' & doc' & D1' & C2 & D2' & D3')]; [done|]. injection C2 as -> -> -> -> ->.
      assert (i' = i) as -> by (apply pretty_nat_inj; congruence).
      assert (w' = w) as -> by (destruct D1, D1'; congruence). assert (doc' = doc) as -> by (destruct D1, D1'; congruence).
      exists i, w, doc. split; [|split; [done|]; split; [by apply weibo_wanted|]; split; [congruence|by apply Hs3]].
      intros ->. destruct (A2 doc _ _ _ _ (Hone _ _ _ D1)) as (_ & B & _). destruct B as [_ (ww & j & sh & W1 & W2 & W3 & _)].
      { apply elem_of_list_fmap. exists h. done. }
      apply written_by_log in HW as (V1 & _ & V3). destruct (Forall2_lookup_r _ _ _ _ _ V3 W1) as (p & Hp1 & Hp2).
      destruct (C15_pipe_lem murmur n false reqsFirst cap sortDocs o s0 nseg [pipeProg prog] p (Z.of_nat j) (shIx sh) log2) as [Hz _];
        [done|by apply Forall_singleton|by apply (V1 _ _ Hp1)|done|by apply (proj2 Hp2)|]. rewrite D3 in W3. change (pretty 0%nat) with "0" in W3. congruence. }
    destruct (show_lem ws (Tokens X stop so query []) false (zlen full) out Hws) as (shown & E1 & E2).
    { intros h Hh. assert (h ∈ full) as Hff by by eapply elem_of_submseteq.
      destruct (HA h Hff) as (i & w & doc & _ & [? _] & _ & ? & _). by exists i, w. }
    exists full, out, shown. rewrite E. split; [done|]. split; [exact HA|]. split; [|done].
    apply NoDup_filters. intros id Hid. apply elem_of_list_fmap in Hid as (h & -> & Hh).
    destruct (HA h Hh) as (i & w & doc & _ & Hd & _ & Hi & _).
    destruct (A2 doc _ _ _ _ (Hone _ _ _ Hd)) as (_ & _ & _ & B). destruct (segDoc_good _ _ _ _ _ _ HX (proj2 Hd)) as [_ Hid].
    rewrite Hi, <- Hid. exact B.
  Qed.
End Run.
