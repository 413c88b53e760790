(** Proofs for C116. *)
From Verif Require Import ModelHelpers SpecHelpers.

Lemma registered_other {St} (calls : list (string * option (@opener St))) m name : name ∉ calls.*1 → registered m calls !! name = m !! name.
Proof.
  revert m. induction calls as [|[a f] calls IH]; intros m H; [done|]. rewrite fmap_cons, elem_of_cons in H. cbn [fst] in H.
  change (registered m ((a, f) :: calls)) with (registered (RegisterStore a f m) calls). rewrite IH by tauto.
  unfold RegisterStore, registry. rewrite lookup_insert_ne; [done|]. intros ->. tauto.
Qed.
Lemma registered_last {St} (calls : list (string * option (@opener St))) m name fn : last_registered calls name fn → registered m calls !! name = Some fn.
Proof.
  intros (b & a & -> & Ha). unfold registered. rewrite foldl_app. cbn [foldl fst snd].
  change (registered (RegisterStore name fn (registered m b)) a !! name = Some fn). rewrite registered_other by done.
  unfold RegisterStore, registry. by rewrite lookup_insert.
Qed.
Lemma asked_lookup {St} (m : @registry St) env path args name : asked_for env args name →
  OpenRegistered m env path args = match m !! name with Some (Some fn) => Some (fn path) | Some None => None | None => Some None end.
Proof.
  intros H. unfold OpenRegistered. destruct H as [env a args Ha|env args Hargs He|args Hargs].
  - apply seqb_neq in Ha. by rewrite Ha.
  - apply seqb_neq in He. destruct Hargs as [->|(rest & ->)]; simpl; by rewrite He.
  - destruct Hargs as [->|(rest & ->)]; done.
Qed.
Lemma asked_total env args : ∃ name, asked_for env args name.
Proof.
  assert (Hd : (args = [] ∨ ∃ rest, args = "" :: rest) ∨ ∃ a rest, args = a :: rest ∧ a ≠ "").
  { destruct args as [|a rest]; [by left; left|]. destruct (decide (a = "")) as [->|]; [left; right; by exists rest|right; by exists a, rest]. }
  destruct Hd as [Hd|(a & rest & -> & Ha)]; [|exists a; by constructor].
  destruct (decide (env = "")) as [->|]; [exists "ldb"; by constructor|exists env; by constructor].
Qed.
Lemma asked_not_empty env args name : asked_for env args name → name ≠ "".
Proof. by destruct 1. Qed.

Lemma l_try {S} (fun_ : gofunc S) handler s s1 : 
  (fun_ s = (s1, Returns) → Try fun_ handler s = (s1, Returns)) ∧
  (fun_ s = (s1, Exits) → Try fun_ handler s = (s1, Exits)) ∧
  (∀ v, v ≠ INil → fun_ s = (s1, Panics v) → Try fun_ handler s = handler v s1).
Proof. unfold Try. split; [by intros ->|]. split; [by intros ->|]. intros v Hv ->. by destruct v. Qed.
Lemma l_try_stops_panics {S} (fun_ : gofunc S) handler s s2 v : Try fun_ handler s = (s2, Panics v) →
  ∃ s1 w, fun_ s = (s1, Panics w) ∧ handler w s1 = (s2, Panics v).
Proof. unfold Try. destruct (fun_ s) as [s1 [| [| |] |]] eqn:E; try done; intros H; by eexists _, _. Qed.
Lemma l_try_nested {S} (fun_ : gofunc S) inner outer s : (∀ v s, ∃ s', inner v s = (s', Returns)) →
  Try (Try fun_ inner) outer s = Try fun_ inner s.
Proof.
  intros Hi. unfold Try at 1. destruct (Try fun_ inner s) as [s2 e] eqn:E; destruct e as [|v|]; try done.
  destruct (l_try_stops_panics _ _ _ _ _ E) as (s1 & w & _ & H). destruct (Hi w s1) as (s' & H'). congruence.
Qed.
Lemma l_try_always_handles_refuted : ∃ (fun_ : gofunc bool) handler, snd (fun_ false) ≠ Returns ∧ snd (fun_ false) ≠ Exits ∧
  (∀ v s, handler v s = (true, Returns)) ∧ Try fun_ handler false = (false, Returns).
Proof. by exists (λ s, (s, Panics INil)), (λ _ _, (true, Returns)). Qed.
Lemma l_last_registration_wins {St} (m : @registry St) calls env path args name fn :
  asked_for env args name → last_registered calls name (Some fn) → OpenRegistered (registered m calls) env path args = Some (fn path).
Proof. intros H1 H2. rewrite (asked_lookup _ _ _ _ _ H1). by rewrite (registered_last _ _ _ _ H2). Qed.
Lemma l_nil_registration_panics {St} (m : @registry St) calls env path args name :
  asked_for env args name → last_registered calls name None → OpenRegistered (registered m calls) env path args = None.
Proof. intros H1 H2. rewrite (asked_lookup _ _ _ _ _ H1). by rewrite (registered_last _ _ _ _ H2). Qed.
Lemma l_others_open_as_before {St} (m : @registry St) calls env path args name :
  asked_for env args name → name ∉ calls.*1 → OpenRegistered (registered m calls) env path args = OpenRegistered m env path args.
Proof. intros H1 H2. rewrite !(asked_lookup _ _ _ _ _ H1). by rewrite (registered_other _ _ _ H2). Qed.
Lemma l_package_stores {St} (ldb bg bolt : @opener St) env path args name : asked_for env args name →
  (name = "ldb" → OpenRegistered (supported ldb bg bolt) env path args = Some (ldb path)) ∧
  (name = "bg" → OpenRegistered (supported ldb bg bolt) env path args = Some (bg path)) ∧
  (name = "bolt" → OpenRegistered (supported ldb bg bolt) env path args = Some (bolt path)) ∧
  (name ∉ ["ldb"; "bg"; "bolt"] → OpenRegistered (supported ldb bg bolt) env path args = Some None).
Proof.
  intros H. rewrite (asked_lookup _ _ _ _ _ H). repeat split; [by intros ->..|].
  intros Hn. rewrite !elem_of_cons in Hn. unfold supported, registry. rewrite !lookup_insert_ne by (intros <-; tauto). by rewrite lookup_empty.
Qed.
Lemma l_empty_name_is_never_asked_for env args : (∃ name, asked_for env args name) ∧ ¬ asked_for env args "".
Proof. split; [apply asked_total|]. intros H. by apply asked_not_empty in H. Qed.
