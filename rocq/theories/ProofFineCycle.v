(** The lock cycle of an indexer stops the pipeline for ever. *)
From Verif Require Import SpecFine SpecIndexer SpecRoute SpecPipe SpecLive ProofPipe ProofLocks ProofGhost ProofSeqEq ProofFine ProofFineSim ProofFineThms.

Lemma callHead_dec (l : list act) : (∃ i o r, l = ADo (EvIx i o) :: r) ∨ ¬ ∃ i o r, l = ADo (EvIx i o) :: r.
Proof. destruct l as [|[[]| | | | | |] ?]; try (right; by intros (? & ? & ? & [=])). left. eauto. Qed.

Section Dead.
  Context (murmur : string → Z) (n : Z) (only reqsFirst : bool) (cap : chan → nat).
  Context (log2 : F → F) (sortDocs : list DocIndex → list DocIndex).
  Notation pst := (pstep murmur n only reqsFirst cap).
  Notation reachp nseg progs := (pipe_reach murmur n only reqsFirst cap nseg progs).
  Notation fdo := (fineDo murmur n only reqsFirst cap log2 sortDocs).
  Notation fineS := (fineStep murmur n only reqsFirst cap log2 sortDocs).
  Notation cstep := (cstep log2 sortDocs).

  (** Without any hypothesis about the program: the pipeline makes steps of its own or none. *)
  Lemma fine_pipe_step s s' : fineS s s' → fPipe s' = fPipe s ∨ pipeStep murmur n only reqsFirst cap (fPipe s) (fPipe s').
  Proof.
    intros [[k|i t] H]; cbn [fineDo] in H.
    - destruct (sProcs (fPipe s) !! k) as [p|]; cbn [mbind option_bind] in H; [|done].
      assert (Hgen : (p' ← pst k (fPipe s); Some (mkFine p' (fShards s))) = Some s' → pipeStep murmur n only reqsFirst cap (fPipe s) (fPipe s')).
      { destruct (pst k (fPipe s)) eqn:E; cbn [mbind option_bind]; [|done]. intros [= <-]. by exists k. }
      destruct (pActs p) as [|[[| i0 o|]| | | | | |] ?]; try (right; by apply Hgen).
      destruct (fShards s !! Z.to_nat i0) as [sh|]; cbn [mbind option_bind] in H; [|done].
      destruct (waiter o sh) as [k'|].
      + destruct (decide (k' = k)) as [->|]; [|done]. destruct (isIdle _ _); [|done].
        destruct (pst k (fPipe s)) as [p'|] eqn:E; cbn [mbind option_bind] in H; [|done]. apply Some_inj_eq in H as <-. right. by exists k.
      + destruct (isIdle _ _); [|done]. apply Some_inj_eq in H as <-. by left.
    - destruct (fShards s !! i) as [sh|]; cbn [mbind option_bind] in H; [|done].
      destruct (cstep t (fsC sh)); cbn [mbind option_bind] in H; [|done]. apply Some_inj_eq in H as <-. by left.
  Qed.
  Lemma fine_pipe_any nseg progs x0 stale looks s : fine_reach murmur n only reqsFirst cap log2 sortDocs nseg progs x0 stale looks s →
    reachp nseg progs (fPipe s).
  Proof.
    intros H. revert s H. apply (rtc_ind_r (λ s, reachp nseg progs (fPipe s)) (fineInit n nseg progs x0 stale looks)); [apply rtc_refl|].
    intros s1 s2 _ H IH. destruct (fine_pipe_step _ _ H) as [->|Hp]; [done|]. by eapply rtc_r.
  Qed.
  Definition allRinv (s : fine) : Prop := ∀ i sh, fShards s !! i = Some sh → rinv (fsC sh).
  Lemma rinv_any nseg progs x0 stale looks s : fine_reach murmur n only reqsFirst cap log2 sortDocs nseg progs x0 stale looks s → allRinv s.
  Proof.
    intros H. revert s H. apply (rtc_ind_r allRinv (fineInit n nseg progs x0 stale looks)).
    - intros i sh Hi. cbn [fShards fineInit] in Hi. rewrite list_lookup_fmap in Hi. apply fmap_Some in Hi as (j & _ & ->). apply rinv_start.
    - intros s1 s2 _ [m H] IH i sh' Hi. destruct (fine_cases _ _ _ _ _ _ _ _ _ _ H _ _ Hi) as (sh & Hsh & [->|[[t Ht]|(o & Ho & ->)]]).
      + by eapply IH.
      + eapply rinv_step; [by exists t|by eapply IH].
      + apply start_rinv; [by eapply IH|eauto].
  Qed.

  Definition dead (i k : nat) (o : op) (s : fine) : Prop :=
    ∃ sh, fShards s !! i = Some sh ∧ rinv (fsC sh) ∧ lock_cycle (fsC sh) ∧ waiter o sh = Some k ∧ calling (fPipe s) k (Z.of_nat i) o.
  Lemma cycle_busy c o : lock_cycle c → isIdle (sideOf o) c = false.
  Proof.
    intros ((f & i & pos & E0) & (id & f' & E1 & _) & _). destruct (isIdle (sideOf o) c) eqn:E; [|done].
    apply isIdle_true in E. unfold pc_of in *. destruct o; cbn [sideOf] in E.
    - by rewrite E in E0.
    - by rewrite E in E1.
  Qed.
  Lemma dead_step i k o s s' : fineS s s' → dead i k o s → dead i k o s'.
  Proof.
    intros [[k'|i0 t] H] (sh & Hi & Hr & Hl & Hw & Hc); cbn [fineDo] in H.
    - destruct (sProcs (fPipe s) !! k') as [p|] eqn:Hp; cbn [mbind option_bind] in H; [|done].
      destruct (callHead_dec (pActs p)) as [(i0 & o0 & l & Ea)|Hno].
      + rewrite Ea in H. destruct (fShards s !! Z.to_nat i0) as [sh0|] eqn:H0; cbn [mbind option_bind] in H; [|done].
        destruct (decide (Z.to_nat i0 = i)) as [E0|Hne].
        { rewrite E0 in H0. rewrite Hi in H0. apply Some_inj_eq in H0 as <-. rewrite cycle_busy in H by done.
          destruct (waiter o0 sh); [|done]. by destruct (decide _). }
        destruct (waiter o0 sh0) as [k2|] eqn:Hw0.
        * destruct (decide (k2 = k')) as [->|]; [|done]. destruct (isIdle _ _); [|done].
          destruct (pst k' (fPipe s)) as [p'|] eqn:E; cbn [mbind option_bind] in H; [|done]. apply Some_inj_eq in H as <-.
          exists sh. cbn [fShards fPipe]. rewrite list_lookup_insert_ne by done. repeat (split; [done|]).
          destruct (decide (k = k')) as [->|Hk].
          { destruct Hc as (q & l' & Hq & Hb). rewrite Hp in Hq. apply Some_inj_eq in Hq as <-. rewrite Ea in Hb. injection Hb as -> _ _. lia. }
          eapply (call_step murmur n only reqsFirst cap k' (fPipe s) p' i0 o0); [done|by exists p, l|done..].
        * destruct (isIdle _ _); [|done]. apply Some_inj_eq in H as <-. exists sh. cbn [fShards fPipe].
          rewrite list_lookup_insert_ne by done. done.
      + assert (Hgen : (p' ← pst k' (fPipe s); Some (mkFine p' (fShards s))) = Some s').
        { destruct (pActs p) as [|[[| i0 o0|]| | | | | |] l]; try exact H. exfalso. apply Hno. eauto. }
        destruct (pst k' (fPipe s)) as [p'|] eqn:E; cbn [mbind option_bind] in Hgen; [|done]. apply Some_inj_eq in Hgen as <-.
        exists sh. cbn [fShards fPipe]. repeat (split; [done|]).
        eapply (plain_step murmur n only reqsFirst cap k' (fPipe s) p'); [done|exact Hp| |done].
        intros i1 o1 l1 E1. apply Hno. eauto.
    - destruct (fShards s !! i0) as [sh0|] eqn:H0; cbn [mbind option_bind] in H; [|done].
      destruct (cstep t (fsC sh0)) as [c|] eqn:Ec; cbn [mbind option_bind] in H; [|done]. apply Some_inj_eq in H as <-.
      destruct (decide (i0 = i)) as [->|Hne].
      + rewrite Hi in H0. apply Some_inj_eq in H0 as <-. exists (setC c sh). cbn [fShards fPipe].
        rewrite list_lookup_insert by (by eapply lookup_lt_Some). split; [done|]. cbn [setC fsC].
        split; [eapply rinv_step; [by exists t|done]|]. split; [|by destruct o].
        by destruct (cycle_step log2 sortDocs _ _ Hr Hl (ex_intro _ t Ec)).
      + exists sh. cbn [fShards fPipe]. by rewrite list_lookup_insert_ne.
  Qed.
  Lemma dead_forever nseg phases x0 stale looks i k o s s' : 1 <= n < 2^32 → Forall good_phase phases →
    fine_reach murmur n only reqsFirst cap log2 sortDocs nseg [program phases] x0 stale looks s →
    (∃ sh, fShards s !! i = Some sh ∧ lock_cycle (fsC sh) ∧ waiter o sh = Some k ∧ calling (fPipe s) k (Z.of_nat i) o) →
    rtc fineS s s' → ¬ returned 0 (fPipe s').
  Proof.
    intros Hn HG Hr (sh & H1 & H2 & H3 & H4) Hss.
    assert (Hd : dead i k o s) by (exists sh; repeat (split; [by try eapply (rinv_any nseg [program phases] x0 stale looks s Hr)|]); done).
    assert (Hd' : dead i k o s') by (clear -Hd Hss; induction Hss as [|s1 s2 s3 H12 H23 IH]; [done|apply IH; by eapply dead_step]).
    assert (Hr' : fine_reach murmur n only reqsFirst cap log2 sortDocs nseg [program phases] x0 stale looks s') by (eapply rtc_transitive; [exact Hr|done]).
    intros Hret. destruct Hd' as (_ & _ & _ & _ & _ & Hc).
    eapply (calling_unreturned murmur n only reqsFirst cap Hn nseg phases (fPipe s')); [done|by eapply fine_pipe_any|done|exact Hc].
  Qed.
End Dead.
