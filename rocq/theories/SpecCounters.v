(** Specification vocabulary for the public counters: what they can be expected to count. *)
From Verif Require Import ModelPipe.

(** Calls of Index, resp. RemoveDoc, with an id other than "0" *)
Definition index_calls (cs : list ecall) : list DocIndex :=
  omap (λ c, match c with EIndex d _ _ _ _ => if decide (DocId d = "0") then None else Some d | _ => None end) cs.
Definition removal_calls (cs : list ecall) : list string :=
  omap (λ c, match c with ERemove id _ => if decide (id = "0") then None else Some id | _ => None end) cs.
(** The keywords of all documents *)
Definition keywords_of (ds : list DocIndex) : list KeywordIndex := mjoin (Keywords <$> ds).
