(** C69: gathering the hosts' replies in package variables. *)
From Verif Require Import ModelGather SpecGather ProofGather.

(** Requests one at a time: an answer holds replies to its own request only, each at
    most once. *)
Theorem C69_one_at_a_time_no_strangers : ∀ (hosts : nat) (replies : nat * nat → bool) ls st r a,
  gRun hosts replies ls gInit = Some st → oneAtATime hosts replies ls →
  answers st !! r = Some a → a ⊆+ wanted hosts replies r.
Proof. exact subset_lem. Qed.
Print Assumptions C69_one_at_a_time_no_strangers.

(** If, moreover, no two appends overlap, it holds all of them. *)
Theorem C69_complete_without_overlap : ∀ (hosts : nat) (replies : nat * nat → bool) ls st r a,
  gRun hosts replies ls gInit = Some st → oneAtATime hosts replies ls → apart hosts replies ls →
  answers st !! r = Some a → a ≡ₚ wanted hosts replies r.
Proof. exact complete_lem. Qed.
Print Assumptions C69_complete_without_overlap.

(** A single request whose hosts all reply can be answered with one reply missing. *)
Theorem C69_all_replies_arrive_refuted :
  ∃ ls st a, gRun 2 (λ _, true) ls gInit = Some st ∧ answers st !! 0%nat = Some a ∧
    oneAtATime 2 (λ _, true) ls ∧ length a = 1%nat ∧ length (wanted 2 (λ _, true) 0) = 2%nat.
Proof.
  destruct (run_wit 2 (λ _, true)
    [GStart 0; GRead (0, 0); GRead (0, 1); GWrite (0, 0); GWrite (0, 1); GAnswer 0]%nat
    (λ s, answers s !! 0%nat) (Some [(0, 1)%nat])) as (st & E & A); [by vm_compute|].
  eexists _, st, _. split; [exact E|]. split; [exact A|]. split; [|done].
  intros ls1 r ls2 s1 Hl Hr. clear E A. destruct ls1 as [|x ls1]; [by injection Hr as <-|]. clear Hr.
  do 5 (destruct ls1 as [|? ls1]; [discriminate Hl|]). destruct ls1; discriminate Hl.
Qed.
Print Assumptions C69_all_replies_arrive_refuted.

(** With two requests at a time a client is given the reply to another client's query
    instead of its own. *)
Theorem C69_answers_are_own_refuted :
  ∃ ls st, gRun 1 (λ _, true) ls gInit = Some st ∧
    answers st !! 0%nat = Some [(1, 0)]%nat ∧ answers st !! 1%nat = Some [(1, 0)]%nat ∧
    ∀ k, k ∈ wanted 1 (λ _, true) 0 → k ≠ (1, 0)%nat.
Proof.
  destruct (run_wit 1 (λ _, true)
    [GStart 0; GRead (0, 0); GWrite (0, 0); GStart 1; GRead (1, 0); GWrite (1, 0); GAnswer 0; GAnswer 1]%nat
    (λ s, (answers s !! 0%nat, answers s !! 1%nat)) (Some [(1, 0)%nat], Some [(1, 0)%nat]))
    as (st & E & A); [by vm_compute|]. injection A as A0 A1.
  eexists _, st. split; [exact E|]. split; [exact A0|]. split; [exact A1|].
  intros k Hk. apply wanted_elem in Hk. destruct Hk as [Hk _]. intros ->. discriminate Hk.
Qed.
Print Assumptions C69_answers_are_own_refuted.

(** A request whose only reply has already arrived is answered with nothing, because
    the next request has reset the variable; its reply is among nobody's answers. *)
Theorem C69_reset_loses_reply_refuted :
  ∃ ls st, gRun 1 (λ k, (fst k =? 0)%nat) ls gInit = Some st ∧
    answers st !! 0%nat = Some [] ∧ answers st !! 1%nat = Some [] ∧
    wanted 1 (λ k, (fst k =? 0)%nat) 0 = [(0, 0)]%nat.
Proof.
  destruct (run_wit 1 (λ k, (fst k =? 0)%nat)
    [GStart 0; GRead (0, 0); GWrite (0, 0); GStart 1; GFail (1, 0); GAnswer 1; GAnswer 0]%nat
    (λ s, (answers s !! 0%nat, answers s !! 1%nat)) (Some [], Some []))
    as (st & E & A); [by vm_compute|]. injection A as A0 A1.
  eexists _, st. split; [exact E|]. split; [exact A0|]. split; [exact A1|]. by vm_compute.
Qed.
Print Assumptions C69_reset_loses_reply_refuted.

(** Three hosts, one down; two requests one after the other. *)
Example C69_case :
  let f := λ k : nat * nat, negb (snd k =? 1)%nat in
  let ls := [GStart 5; GFail (5, 1); GRead (5, 2); GWrite (5, 2); GRead (5, 0); GWrite (5, 0); GAnswer 5;
             GStart 6; GRead (6, 0); GWrite (6, 0); GFail (6, 1); GRead (6, 2); GWrite (6, 2); GAnswer 6]%nat in
  (s ← gRun 3 f ls gInit; Some (answers s !! 5%nat, answers s !! 6%nat)) =
    Some (Some [(5, 2); (5, 0)]%nat, Some [(6, 0); (6, 2)]%nat) ∧
  wanted 3 f 5 = [(5, 0); (5, 2)]%nat.
Proof. by vm_compute. Qed.
