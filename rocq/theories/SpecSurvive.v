(** Specification vocabulary for a process that keeps running. *)
From Verif Require Import ModelSession ModelEngine ModelFlight SpecIndexer SpecSearch SpecLogic SpecFlight SpecRoute SpecStore SpecWhole SpecSession.

(** The id that a call adds. *)
Definition indexed_id (c : wcall) : option string := match c with WIndex doc _ _ => Some (DocId doc) | _ => None end.

(** No id is indexed twice, or although the files have it.  Removals are free. *)
Definition indexed_once (murmur : string → Z) (nS : Z) (dbs : Z → kv) (cs : list wcall) : Prop :=
  NoDup (omap indexed_id cs) ∧
  ∀ id, id ∈ omap indexed_id cs → dbs (storeShard murmur nS id) !! id = None.

(** A request that the indexers can take: sane paging, tokens if locations are asked for
    and the logic is plain, and something required if all of it is required. *)
Definition harmless (io : IndexerOpts) (req : SearchReq) : Prop :=
  paging_ok req ∧
  (IndexType io = LocsIndex → rqTokens req ≠ [] ∨ is_logic (rqTokens req ++ rqLabels req) (rqLogic req)) ∧
  (lMust (rqLogic req) = true → rqTokens req = [] → rqLabels req = [] → eMust (rqLogic req) = [] → eShould (rqLogic req) = []).
