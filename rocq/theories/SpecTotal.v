(** Specification vocabulary for the accumulated token length (C20). *)
From Verif Require Import ModelLookup SpecIndexer SpecLogic.

(** Sum of the lengths [zl] of the documents of [D]. *)
Definition sum_len (zl : DocIndex → Z) (D : docmap) : Z := map_fold (λ _ d a, zl d + a) 0 D.

(** The lengths the indexer has recorded are those of the documents of [D]. *)
Definition measures (zl : DocIndex → Z) (s : Indexer) (D : docmap) : Prop :=
  ∀ id, docTokenLens s !! id =
    match D !! id with
    | Some d => if zl d =? 0 then None else Some (f32_of_Z (zl d))
    | None => None
    end.

(** The documents of [D] were added by the history, under their own ids. *)
Definition drawn (ops : list op) (D : docmap) : Prop :=
  ∀ id d, D !! id = Some d → added d ops ∧ DocId d = id.

(** Sum of the lengths over all add calls of the history. *)
Definition added_len (zl : DocIndex → Z) (ops : list op) : Z :=
  foldr (λ o a, match o with OpAdd (Some d) _ => zl d + a | _ => a end) 0 ops.
