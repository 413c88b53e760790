(** Theorems about the distribution of documents over shards (engine.go Index,
    RemoveDoc, Flush; segment.go segmenterWorker). *)
From Verif Require Import ModelRoute SpecIndexer SpecSearch SpecRank SpecRoute ProofRoute ProofIxThms ExampleTools.

(** * C36: every shard shows exactly the last version sent to it *)
Theorem C36_each_shard_keeps_its_last_version murmur sortDocs only n o i cs s0 :
  valid_sort sortDocs → Init o = Some s0 → 1 <= n < 2^32 →
  Forall good_call cs → Forall forced_call cs →
  ∃ sh M, shard_after murmur sortDocs o only n i cs sh ∧
    shows (shIx sh) M ∧ clean (shIx sh) M ∧ ∀ id, M !! id = version murmur n i cs id.
Proof. exact (C36_versions_lem murmur sortDocs only n o i cs s0). Qed.
Print Assumptions C36_each_shard_keeps_its_last_version.

(** Two contents hashed to different shards: both versions are served. *)
Theorem C36_old_version_stays murmur sortDocs only n o cs0 d1 f1 c1 a1 cs1 d2 f2 c2 a2 cs2 i j s0 :
  valid_sort sortDocs → Init o = Some s0 → 1 <= n < 2^32 →
  let cs := cs0 ++ EIndex d1 f1 c1 a1 true :: cs1 ++ EIndex d2 f2 c2 a2 true :: cs2 in
  Forall good_call cs → Forall forced_call cs → DocId d1 = DocId d2 →
  u32 (murmur (String.append (DocId d1) c1)) `mod` n = i →
  u32 (murmur (String.append (DocId d2) c2)) `mod` n = j → i ≠ j →
  Forall (λ c, sent_to murmur n i (DocId d1) c = false) (cs1 ++ cs2) →
  Forall (λ c, sent_to murmur n j (DocId d2) c = false) cs2 →
  ∃ sh1 sh2, shard_after murmur sortDocs o only n i cs sh1 ∧ shard_after murmur sortDocs o only n j cs sh2 ∧
    (∀ log2, serves log2 only sh1 d1 f1 c1 a1) ∧ (∀ log2, serves log2 only sh2 d2 f2 c2 a2).
Proof. exact (C36_stays_lem murmur sortDocs only n o cs0 d1 f1 c1 a1 cs1 d2 f2 c2 a2 cs2 i j s0). Qed.
Print Assumptions C36_old_version_stays.

(** The shard of the new content serves the new version and nothing else under this
    id, in particular if it is also the shard of the old content. *)
Theorem C36_same_shard_is_replaced murmur sortDocs only n o i cs0 d f ct a fo cs1 s0 :
  valid_sort sortDocs → Init o = Some s0 → 1 <= n < 2^32 →
  let cs := cs0 ++ EIndex d f ct a fo :: cs1 in
  Forall good_call cs → Forall forced_call cs →
  u32 (murmur (String.append (DocId d) ct)) `mod` n = i →
  Forall (λ c, sent_to murmur n i (DocId d) c = false) cs1 →
  ∃ sh, shard_after murmur sortDocs o only n i cs sh ∧ ∀ log2, serves log2 only sh d f ct a.
Proof. exact (holds_version murmur sortDocs only n o i cs0 d f ct a fo cs1 s0). Qed.
Print Assumptions C36_same_shard_is_replaced.

(** Two shards, hash = length of id and content: "a1" goes to shard 0, "a22" to 1. *)
Definition exHash (s : string) : Z := Z.of_nat (String.length s).
Definition exRoute : list ecall :=
  [EIndex docA (IOther 1) "1" INil true; EIndex docB INil "b" INil true;
   EIndex docA2 (IOther 2) "22" INil true; EFlush].
Definition exAfter (i : Z) (ids : list string) : option (list bool * list bool) :=
  match st (optsL 2) (ixStream exHash 2 i exRoute) with
  | Some s => Some (HasDoc s <$> ids, (λ k, bool_decide ("a" ∈ default [] (docIds <$> table s !! k))) <$> ["x"; "z"])
  | None => None
  end.
Example C36_case : valid_sort stableSort ∧ is_Some (Init (optsL 2)) ∧
  Forall good_call exRoute ∧ Forall forced_call exRoute ∧ DocId docA = DocId docA2 ∧
  u32 (exHash (String.append "a" "1")) `mod` 2 = 0 ∧ u32 (exHash (String.append "a" "22")) `mod` 2 = 1 ∧
  Forall (λ c, sent_to exHash 2 0 "a" c = false) [EIndex docB INil "b" INil true; EFlush] ∧
  Forall (λ c, sent_to exHash 2 1 "a" c = false) [EFlush] ∧
  exAfter 0 ["a"; "b"] = Some ([true; true], [true; false]) ∧
  exAfter 1 ["a"; "b"] = Some ([true; false], [false; true]).
Proof.
  split; [exact stableSort_valid|]. split; [apply Init_Some; done|]. split.
  { repeat constructor; cbn; try done; apply (bool_decide_unpack _); by vm_compute. }
  split. { repeat constructor; done. }
  split; [done|]. split; [by vm_compute|]. split; [by vm_compute|].
  split; [by repeat constructor|]. split; [by repeat constructor|]. by vm_compute.
Qed.

(** * C37 *)
Theorem C37_remove_reaches_every_shard murmur sortDocs only n log2 o i cs id sh :
  id ≠ "0" → shard_after murmur sortDocs o only n i cs sh →
  ∃ sh', shard_after murmur sortDocs o only n i (cs ++ [ERemove id true]) sh' ∧
    HasDoc (shIx sh') id = false ∧ not_found log2 (shIx sh') id ∧ (∀ k, ¬ in_row (shIx sh') k id) ∧
    ranker_holds (shRk sh') id None None None.
Proof. exact (C37_lem murmur sortDocs only n log2 o i cs id sh). Qed.
Print Assumptions C37_remove_reaches_every_shard.

(** Both versions of "a" are there before. *)
Example C37_case : ∀ i, 0 <= i < 2 → ∃ sh, shard_after exHash stableSort (optsL 2) false 2 i exRoute sh ∧
  HasDoc (shIx sh) "a" = true.
Proof.
  intros i Hi.
  assert (H : check (optsL 2) (ixStream exHash 2 i exRoute) (λ s, HasDoc s "a") = true).
  { destruct (decide (i = 0)) as [->|]; [by vm_compute|]. assert (i = 1) as -> by lia. by vm_compute. }
  assert (Hg : Forall good_op (ixStream exHash 2 i exRoute)).
  { apply ixStream_good. repeat constructor; cbn; try done; apply (bool_decide_unpack _); by vm_compute. }
  destruct (check_reach _ _ _ Hg H) as (s & Hr & Hs).
  assert (Hk : is_Some (rrun (rkStream exHash 2 false i exRoute) (RankerInit [false]))).
  { destruct (decide (i = 0)) as [->|]; [vm_compute; by eexists|]. assert (i = 1) as -> by lia. vm_compute; by eexists. }
  destruct Hk as [r Hk]. exists (mkShard s r). done.
Qed.
