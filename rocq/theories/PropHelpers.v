(** Theorems about small helpers. *)
From Verif Require Import ModelHelpers SpecHelpers ProofHelpers.

(** * C116: Try and registered stores *)

(** A panic is handed to the handler, once, in the state that the function left behind; what
    the handler does then is what Try does. Without a panic the handler is not called. *)
Theorem C116_try {S} (fun_ : gofunc S) handler s s1 : 
  (fun_ s = (s1, Returns) → Try fun_ handler s = (s1, Returns)) ∧
  (fun_ s = (s1, Exits) → Try fun_ handler s = (s1, Exits)) ∧
  (∀ v, v ≠ INil → fun_ s = (s1, Panics v) → Try fun_ handler s = handler v s1).
Proof. exact (l_try fun_ handler s s1). Qed.
Print Assumptions C116_try.
(** No panic leaves Try but one of the handler. *)
Theorem C116_try_stops_panics {S} (fun_ : gofunc S) handler s s2 v : Try fun_ handler s = (s2, Panics v) →
  ∃ s1 w, fun_ s = (s1, Panics w) ∧ handler w s1 = (s2, Panics v).
Proof. exact (l_try_stops_panics fun_ handler s s2 v). Qed.
Print Assumptions C116_try_stops_panics.
(** Try inside Try: the outer handler sees only panics of the inner one. *)
Theorem C116_try_nested {S} (fun_ : gofunc S) inner outer s : (∀ v s, ∃ s', inner v s = (s', Returns)) →
  Try (Try fun_ inner) outer s = Try fun_ inner s.
Proof. exact (l_try_nested fun_ inner outer s). Qed.
Print Assumptions C116_try_nested.
(** A claim one might make: if the function does not return, the handler is called (here: it
    would write the state). It is false for panic(nil). *)
Theorem C116_try_always_handles_refuted : ∃ (fun_ : gofunc bool) handler, snd (fun_ false) ≠ Returns ∧ snd (fun_ false) ≠ Exits ∧
  (∀ v s, handler v s = (true, Returns)) ∧ Try fun_ handler false = (false, Returns).
Proof. exact (l_try_always_handles_refuted). Qed.
Print Assumptions C116_try_always_handles_refuted.

(** After any calls of RegisterStore, OpenStore opens what was registered last for the name
    that is asked for; *)
Theorem C116_last_registration_wins {St} (m : @registry St) calls env path args name fn :
  asked_for env args name → last_registered calls name (Some fn) → OpenRegistered (registered m calls) env path args = Some (fn path).
Proof. exact (l_last_registration_wins m calls env path args name fn). Qed.
Print Assumptions C116_last_registration_wins.
(** a nil function registered panics when it is opened, even in place of a store of the package; *)
Theorem C116_nil_registration_panics {St} (m : @registry St) calls env path args name :
  asked_for env args name → last_registered calls name None → OpenRegistered (registered m calls) env path args = None.
Proof. exact (l_nil_registration_panics m calls env path args name). Qed.
Print Assumptions C116_nil_registration_panics.
(** names that were not registered open as before, *)
Theorem C116_others_open_as_before {St} (m : @registry St) calls env path args name :
  asked_for env args name → name ∉ calls.*1 → OpenRegistered (registered m calls) env path args = OpenRegistered m env path args.
Proof. exact (l_others_open_as_before m calls env path args name). Qed.
Print Assumptions C116_others_open_as_before.
(** the three stores of the package by their names and nothing else, *)
Theorem C116_package_stores {St} (ldb bg bolt : @opener St) env path args name : asked_for env args name →
  (name = "ldb" → OpenRegistered (supported ldb bg bolt) env path args = Some (ldb path)) ∧
  (name = "bg" → OpenRegistered (supported ldb bg bolt) env path args = Some (bg path)) ∧
  (name = "bolt" → OpenRegistered (supported ldb bg bolt) env path args = Some (bolt path)) ∧
  (name ∉ ["ldb"; "bg"; "bolt"] → OpenRegistered (supported ldb bg bolt) env path args = Some None).
Proof. exact (l_package_stores ldb bg bolt env path args name). Qed.
Print Assumptions C116_package_stores.
(** and a store registered under the empty name can never be opened. *)
Theorem C116_empty_name_is_never_asked_for env args : (∃ name, asked_for env args name) ∧ ¬ asked_for env args "".
Proof. exact (l_empty_name_is_never_asked_for env args). Qed.
Print Assumptions C116_empty_name_is_never_asked_for.

(** ** Examples *)
Example C116_ex_try : Try (λ s : list string, (s ++ ["fun"], Panics (IOther 1))) (λ v s, (s ++ ["handler"], Returns)) [] = (["fun"; "handler"], Returns).
Proof. done. Qed.
Example C116_ex_register :
  let mk (n : Z) : option (@opener Z) := Some (λ _, Some n) in
  let m := registered (supported (λ _, Some 1) (λ _, Some 2) (λ _, Some 3)) [("kv", mk 4); ("ldb", mk 5); ("kv", mk 6)] in
  last_registered [("kv", mk 4); ("ldb", mk 5); ("kv", mk 6)] "kv" (mk 6) ∧ asked_for "bg" ["kv"] "kv" ∧
  OpenRegistered m "bg" "p" ["kv"] = Some (Some 6) ∧ OpenRegistered m "bg" "p" [""] = Some (Some 2) ∧ OpenRegistered m "" "p" [] = Some (Some 5) ∧ OpenRegistered m "x" "p" [] = Some None.
Proof.
  split; [exists [("kv", Some (λ _, Some 4)); ("ldb", Some (λ _, Some 5))], []; split; [done|by apply not_elem_of_nil]|].
  split; [by constructor|]. by vm_compute.
Qed.
