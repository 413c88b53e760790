(** Gathering the answers of the hosts: net/http/dist.go:31-34, 37-51, 53-84 (and, with
    the same structure, net/grpc/search.go:111-129, 131-153).  The slice wgdata and the
    wait group wg are package variables, shared by all requests, and every reply is
    appended by its own goroutine without a lock.

    Simplifications: an append is two steps, reading the slice and writing back the
    longer one (so of two overlapping appends the one that writes last survives);
    resetting wgdata and starting all goroutines of a request is one step; writing and
    wg.Done() are one step; reading wgdata after wg.Wait() is one step. *)
From Verif Require Export GoBase.

(** a reply is named by the request it belongs to and the host it comes from *)
Notation tag := (nat * nat)%type (only parsing).
(** a goroutine WgPost: waiting for the host, or between reading and writing wgdata *)
Inductive post := PRun | PRead (snap : list tag).

Record GS := mkGS {
  wgdata : list tag; wg : nat; posts : gmap tag post;
  waiting : gset nat;                  (* requests in wg.Wait() *)
  answers : gmap nat (list tag) }.     (* what a request found in wgdata *)
Definition gInit : GS := mkGS [] 0 ∅ ∅ ∅.

Section Gather.
  (** len(config.Url) *)
  Variable hosts : nat.
  (** does the host give a non-empty answer to the request? *)
  Variable replies : tag → bool.

  Inductive glabel :=
    | GStart (r : nat)      (* lines 54, 77-82 *)
    | GFail (k : tag)       (* lines 39-45 *)
    | GRead (k : tag)       (* line 47, right-hand side *)
    | GWrite (k : tag)      (* line 47, assignment, and 49 *)
    | GAnswer (r : nat).    (* lines 84-86 *)

  Definition spawn (r : nat) (m : gmap tag post) : gmap tag post :=
    foldr (λ h m, <[(r, h) := PRun]> m) m (seq 0 hosts).

  Definition gStep (l : glabel) (st : GS) : option GS :=
    match l with
    | GStart r =>
      if decide (r ∈ waiting st ∨ is_Some (answers st !! r)) then None
      else Some (mkGS [] (wg st + hosts) (spawn r (posts st)) ({[r]} ∪ waiting st) (answers st))
    | GFail k =>
      match posts st !! k with
      | Some PRun =>
        if replies k then None
        else Some (mkGS (wgdata st) (wg st - 1) (delete k (posts st)) (waiting st) (answers st))
      | _ => None
      end
    | GRead k =>
      match posts st !! k with
      | Some PRun =>
        if replies k then
          Some (mkGS (wgdata st) (wg st) (<[k := PRead (wgdata st)]> (posts st)) (waiting st) (answers st))
        else None
      | _ => None
      end
    | GWrite k =>
      match posts st !! k with
      | Some (PRead snap) =>
        Some (mkGS (snap ++ [k]) (wg st - 1) (delete k (posts st)) (waiting st) (answers st))
      | _ => None
      end
    | GAnswer r =>
      if decide (r ∈ waiting st ∧ wg st = 0%nat) then
        Some (mkGS (wgdata st) (wg st) (posts st) (waiting st ∖ {[r]}) (<[r := wgdata st]> (answers st)))
      else None
    end.

  Fixpoint gRun (ls : list glabel) (st : GS) : option GS :=
    match ls with
    | [] => Some st
    | l :: ls' => st' ← gStep l st; gRun ls' st'
    end.
End Gather.
