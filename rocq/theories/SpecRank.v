(** Specification vocabulary for ranking and paging. *)
From Verif Require Import ModelRanker.

(** No score is NaN (NaN is the only float that differs from itself). *)
Definition nan_free (scores : list F) : Prop := Forall (λ x, f_eqb x x = true) scores.

(** The documented order: larger first score first; on a tie the next score
    decides; if all common scores tie the longer vector is first. *)
Inductive ranks_above : list F → list F → Prop :=
  | above_here x y a b : f_gtb x y = true → ranks_above (x :: a) (y :: b)
  | above_later x y a b : f_eqb x y = true → ranks_above a b → ranks_above (x :: a) (y :: b)
  | above_longer x a : ranks_above (x :: a) [].

(** Equal scores (0 and -0 are equal). *)
Definition score_eq (a b : list F) : Prop := Forall2 (λ x y, f_eqb x y = true) a b.

(** A result list in the requested order. *)
Definition in_order (reverse : bool) (l : list ScoredDoc) : Prop :=
  StronglySorted (λ x y, ¬ (if reverse then ranks_above (sdScores x) (sdScores y)
                            else ranks_above (sdScores y) (sdScores x))) l.

(** The last call that mentions [id]. *)
Definition about (id : string) (o : rop) : bool :=
  match o with ROAdd i _ _ => seqb i id | RORemove i => seqb i id end.
Definition last_call (id : string) (ops : list rop) : option rop :=
  head (filter (λ o, about id o = true) (reverse ops)).

(** The calls the engine makes: content (a string) and attributes are both given
    (ranker_worker.go:54-55), or, with IDOnly, neither (line 52). *)
Definition engine_call (only : bool) (o : rop) : Prop :=
  match o with
  | ROAdd _ _ c => if only then c = [] else ∃ s a, c = [IStr s; a]
  | RORemove _ => True
  end.

(** What the ranker must know about a document after the calls [ops]. *)
Definition known (only : bool) (ops : list rop) (id : string) : option (Iface * string * Iface) :=
  match last_call id ops with
  | Some (ROAdd _ f c) =>
    Some (if only then (f, "", INil)
          else match c with IStr s :: a :: _ => (f, s, a) | _ => (f, "", INil) end)
  | _ => None
  end.

(** The result entry a candidate must produce, if any. *)
Definition expected (only : bool) (score : IndexedDoc → Iface → list F)
    (info : option (Iface * string * Iface)) (d : IndexedDoc) : option ScoredDoc :=
  match info with
  | None => None
  | Some (f, c, a) =>
    match score d f with
    | [] => None
    | sc => Some (mkScored (ixDocId d) sc (TokenSnippetLocs d) (TokenLocs d)
                    (if only then "" else c) (if only then INil else a) (if only then INil else f))
    end
  end.

(** No score of these results is NaN. *)
Definition no_nan (l : list ScoredDoc) : Prop := Forall (λ h, nan_free (sdScores h)) l.

(** The elements from position [i] on, at most [n] of them ([n] = 0: all). *)
Definition page {A} (i n : Z) (l : list A) : list A :=
  let rest := drop (Z.to_nat i) l in if n =? 0 then rest else take (Z.to_nat n) rest.

(** For calls that may leave out content or attributes (AddDoc is variadic): the
    adds of [id] since its last removal, latest first. *)
Fixpoint leading_adds (l : list rop) : list (Iface * list Iface) :=
  match l with
  | ROAdd _ f c :: l' => (f, c) :: leading_adds l'
  | _ => []
  end.
Definition adds_since (id : string) (ops : list rop) : list (Iface * list Iface) :=
  leading_adds (filter (λ o, about id o = true) (reverse ops)).
Definition given_content (c : list Iface) : option string :=
  match c with IStr s :: _ => Some s | _ => None end.
Definition given_attri (c : list Iface) : option Iface :=
  match c with _ :: a :: _ => Some a | _ => None end.
(** Content, if given at all, is a string. *)
Definition string_content (o : rop) : Prop :=
  match o with ROAdd _ _ (x :: _) => ∃ s, x = IStr s | _ => True end.

(** The ranker's maps hold exactly this for [id]. *)
Definition ranker_holds (r : Ranker) (id : string)
    (fields : option Iface) (content : option string) (attri : option Iface) : Prop :=
  rFields r !! id = fields ∧ rContent r !! id = content ∧ rAttri r !! id = attri ∧
  rDocs r !! id = (match fields with Some _ => Some true | None => None end).
