(** Proofs about the handlers of the servers. *)
From Verif Require Import SpecNet ModelServer ModelEngine SpecIndexer SpecSearch SpecRank SpecRoute SpecPipe SpecEngine SpecFlight SpecStore SpecEnd
  SpecLife SpecWhole SpecServer ProofTopK.

(** * Atoi *)
Lemma append_nil (s : string) : String.append s "" = s.
Proof. induction s as [|c s IH]; [done|]. exact (f_equal (String c) IH). Qed.
Lemma append_assoc (s t u : string) : String.append s (String.append t u) = String.append (String.append s t) u.
Proof. induction s as [|c s IH]; [done|]. exact (f_equal (String c) IH). Qed.
Lemma digit_char d : (d <= 9)%nat → digit (Ascii.ascii_of_nat (48 + d)) = Some (Z.of_nat d).
Proof. intros H. do 10 (destruct d as [|d]; [reflexivity|]). lia. Qed.
Lemma digit_inv c d : digit c = Some d → ∃ k, (k <= 9)%nat ∧ d = Z.of_nat k ∧ c = Ascii.ascii_of_nat (48 + k).
Proof.
  unfold digit. destruct ((48 <=? Z.of_nat (Ascii.nat_of_ascii c)) && (Z.of_nat (Ascii.nat_of_ascii c) <=? 57)) eqn:E; [|done].
  apply andb_true_iff in E as [E1%Z.leb_le E2%Z.leb_le]. intros [= <-]. exists (Ascii.nat_of_ascii c - 48)%nat.
  split; [lia|]. split; [lia|]. replace (48 + (Ascii.nat_of_ascii c - 48))%nat with (Ascii.nat_of_ascii c) by lia.
  by rewrite Ascii.ascii_nat_embedding.
Qed.
Definition dgo (n : Z) (ds : list nat) : Z := foldl (λ n d, 10 * n + Z.of_nat d) n ds.
Lemma dgo_ge ds : ∀ n, 0 <= n → n <= dgo n ds.
Proof. induction ds as [|d ds IH]; intros n Hn; [done|]. cbn. specialize (IH (10 * n + Z.of_nat d)). unfold dgo in IH. lia. Qed.

Lemma digits_ok ds : Forall (λ d, (d <= 9)%nat) ds → ∀ n, 0 <= n < 2^64 →
  parseDigits n (dstr ds) = Some (if dgo n ds <? 2^64 then dgo n ds else 2^64).
Proof.
  induction 1 as [|d ds Hd Hds IH]; intros n Hn.
  - cbn [dstr parseDigits dgo foldl]. destruct (Z.ltb_spec n (2^64)); [done|lia].
  - cbn [dstr parseDigits]. rewrite digit_char by done. cbn [mbind option_bind].
    change (dgo n (d :: ds)) with (dgo (10 * n + Z.of_nat d) ds).
    replace (n * 10 + Z.of_nat d) with (10 * n + Z.of_nat d) by lia.
    destruct (Z.gtb_spec (10 * n + Z.of_nat d) (2^64 - 1)).
    + pose proof (dgo_ge ds (10 * n + Z.of_nat d)). destruct (Z.ltb_spec (dgo (10 * n + Z.of_nat d) ds) (2^64)); [lia|done].
    + apply IH. lia.
Qed.
(** the converse: a result comes from digits, at least up to where they get too big *)
Lemma digits_inv s : ∀ n m, 0 <= n < 2^64 → parseDigits n s = Some m →
  ∃ ds u, Forall (λ d, (d <= 9)%nat) ds ∧ s = String.append (dstr ds) u ∧
    ((u = "" ∧ m = dgo n ds ∧ m < 2^64) ∨ (ds ≠ [] ∧ m = 2^64 ∧ 2^64 <= dgo n ds)).
Proof.
  induction s as [|c s IH]; intros n m Hn H.
  - injection H as <-. exists [], "". split; [constructor|]. split; [done|]. left. split; [done|]. split; [done|lia].
  - cbn [parseDigits] in H. destruct (digit c) as [d|] eqn:Ed; [|done]. cbn [mbind option_bind] in H.
    destruct (digit_inv c d Ed) as (k & Hk & -> & ->). replace (n * 10 + Z.of_nat k) with (10 * n + Z.of_nat k) in H by lia.
    destruct (Z.gtb_spec (10 * n + Z.of_nat k) (2^64 - 1)).
    + injection H as <-. exists [k], s. split; [by apply Forall_singleton|]. split; [done|]. right. split; [done|]. split; [done|]. cbn. lia.
    + destruct (IH (10 * n + Z.of_nat k) m) as (ds & u & Hds & -> & Hcase); [lia|done|].
      exists (k :: ds), u. split; [by constructor|]. split; [done|]. destruct Hcase as [(-> & -> & ?)|(? & -> & ?)].
      * left. by split.
      * right. split; [done|]. by split.
Qed.
Lemma dval_nonneg ds : 0 <= dval ds.
Proof. apply (dgo_ge ds 0). lia. Qed.

Lemma uint_ok ds : ds ≠ [] → Forall (λ d, (d <= 9)%nat) ds → parseUint (dstr ds) = Some (if dval ds <? 2^64 then dval ds else 2^64).
Proof.
  intros Hne Hds. unfold parseUint. destruct ds as [|d ds]; [done|].
  change (dstr (d :: ds)) with (String (Ascii.ascii_of_nat (48 + d)) (dstr ds)). cbv iota.
  change (String (Ascii.ascii_of_nat (48 + d)) (dstr ds)) with (dstr (d :: ds)). by rewrite digits_ok.
Qed.
Lemma first_no_sign ds : ds ≠ [] → Forall (λ d, (d <= 9)%nat) ds →
  ∃ c r, dstr ds = String c r ∧ Ascii.eqb c minusSign = false ∧ Ascii.eqb c plusSign = false.
Proof.
  intros Hne Hds. destruct ds as [|d ds]; [done|]. apply Forall_cons in Hds as [Hd _]. eexists _, _. split; [reflexivity|].
  do 10 (destruct d as [|d]; [by split|]). lia.
Qed.
Lemma atoi_numeral s z : numeral s z → Atoi s = nearest_int z.
Proof.
  intros (ds & Hne & Hds & Hs). pose proof (dval_nonneg ds) as H0. unfold nearest_int.
  assert (Hnat : ∀ un, un = (if dval ds <? 2^64 then dval ds else 2^64) →
    (if un >=? 2^63 then 2^63 - 1 else un) = nearest_int (dval ds) ∧ (if un >? 2^63 then - 2^63 else - un) = nearest_int (- dval ds)).
  { intros un ->. unfold nearest_int. destruct (Z.ltb_spec (dval ds) (2^64)).
    - split; [destruct (Z.geb_spec (dval ds) (2^63)); lia|destruct (Z.gtb_spec (dval ds) (2^63)); lia].
    - split; [destruct (Z.geb_spec (2^64) (2^63)); lia|destruct (Z.gtb_spec (2^64) (2^63)); lia]. }
  destruct (Hnat _ eq_refl) as [Hp Hm]. unfold Atoi. destruct Hs as [[-> ->]|[[-> ->]|[-> ->]]].
  - destruct (first_no_sign ds Hne Hds) as (c & r & E & E1 & E2). rewrite E, E1, E2, <-E. rewrite uint_ok by done. exact Hp.
  - change (String.append "+" (dstr ds)) with (String plusSign (dstr ds)). cbv beta iota.
    change (Ascii.eqb plusSign minusSign) with false. change (Ascii.eqb plusSign plusSign) with true. cbv beta iota.
    rewrite uint_ok by done. exact Hp.
  - change (String.append "-" (dstr ds)) with (String minusSign (dstr ds)). cbv beta iota.
    change (Ascii.eqb minusSign minusSign) with true. cbv beta iota.
    rewrite uint_ok by done. exact Hm.
Qed.
Lemma atoi_other s : (∀ z, ¬ numeral s z) →
  Atoi s = 0 ∨ ∃ t u z, s = String.append t u ∧ numeral t z ∧ 2^64 <= Z.abs z ∧ Atoi s = nearest_int z.
Proof.
  intros Hn.
  assert (Hgen : ∀ sgn r (f : Z → Z), (∀ ds, ds ≠ [] → Forall (λ d, (d <= 9)%nat) ds → numeral (String.append sgn (dstr ds)) (f (dval ds))) →
    (∀ v, Z.abs (f v) = Z.abs v) → s = String.append sgn r →
    parseUint r = None ∨ ∃ t u z, s = String.append t u ∧ numeral t (f z) ∧ 2^64 <= z ∧ parseUint r = Some (2^64)).
  { intros sgn r f Hf Habs ->. unfold parseUint. destruct r as [|c r]; [by left|]. destruct (parseDigits 0 (String c r)) as [m|] eqn:E; [|by left].
    destruct (digits_inv _ 0 m (conj (Z.le_refl 0) eq_refl) E) as (ds & u & Hds & Es & [(-> & -> & Hlt)|(Hne & -> & Hge)]).
    - exfalso. assert (ds ≠ []) by (intros ->; discriminate Es). apply (Hn (f (dval ds))). rewrite Es.
      rewrite append_nil. by apply Hf.
    - right. exists (String.append sgn (dstr ds)), u, (dval ds). split; [|split; [by apply Hf|by split]].
      rewrite Es. apply append_assoc. }
  assert (Hpos : ∀ z, 2^64 <= z → nearest_int z = 2^63 - 1 ∧ nearest_int (- z) = - 2^63) by (intros z Hz; unfold nearest_int; lia).
  unfold Atoi at 1 2. destruct s as [|c r]; [by left|].
  destruct (Ascii.eqb c minusSign) eqn:E1.
  - apply Ascii.eqb_eq in E1 as ->. destruct (Hgen "-" r Z.opp) as [->|(t & u & z & Es & Ht & Hz & ->)].
    + intros ds ? ?. exists ds. split; [done|]. split; [done|]. right; right. done.
    + intros v. lia.
    + done.
    + by left.
    + right. exists t, u, (- z). split; [done|]. split; [done|]. split; [lia|]. by rewrite (proj2 (Hpos z Hz)).
  - destruct (Ascii.eqb c plusSign) eqn:E2.
    + apply Ascii.eqb_eq in E2 as ->. destruct (Hgen "+" r id) as [->|(t & u & z & Es & Ht & Hz & ->)].
      * intros ds ? ?. exists ds. split; [done|]. split; [done|]. right; left. done.
      * done.
      * done.
      * by left.
      * right. exists t, u, z. split; [done|]. split; [done|]. split; [lia|]. by rewrite (proj1 (Hpos z Hz)).
    + destruct (Hgen "" (String c r) id) as [->|(t & u & z & Es & Ht & Hz & ->)].
      * intros ds ? ?. exists ds. split; [done|]. split; [done|]. by left.
      * done.
      * done.
      * by left.
      * right. exists t, u, z. split; [done|]. split; [done|]. split; [lia|]. by rewrite (proj1 (Hpos z Hz)).
Qed.
Lemma atoi_range s : - 2^63 <= Atoi s < 2^63.
Proof.
  unfold Atoi. destruct (match s with EmptyString => (false, s) | String c r => if Ascii.eqb c minusSign then (true, r) else if Ascii.eqb c plusSign then (false, r) else (false, s) end) as [neg s'].
  destruct (parseUint s') as [un|] eqn:E; [|lia]. assert (0 <= un).
  { unfold parseUint in E. destruct s' as [|c s']; [done|]. destruct (digits_inv _ 0 un (conj (Z.le_refl 0) eq_refl) E) as (ds & u & _ & _ & [(_ & -> & _)|(_ & -> & _)]); [apply dval_nonneg|lia]. }
  destruct neg; [destruct (Z.gtb_spec un (2^63)); lia|destruct (Z.geb_spec un (2^63)); lia].
Qed.
