(** Specification vocabulary for words, keywords and segmentation. *)
From Verif Require Import ModelSegment SpecIndexer.

(** The iteration order over a map is some order of its entries. *)
Definition valid_range (X : Ext) : Prop := ∀ m, rangeMap X m ≡ₚ map_to_list m.

(** [ws] are the words of [s]: joined by single spaces they give [s], and none of them
    contains a space. *)
Fixpoint no_space (w : string) : Prop :=
  match w with EmptyString => True | String c r => c ≠ Ascii.ascii_of_nat 32 ∧ no_space r end.
Fixpoint joined (ws : list string) : string :=
  match ws with
  | [] => ""
  | [w] => w
  | w :: ws' => String.append w (String (Ascii.ascii_of_nat 32) (joined ws'))
  end.
Definition words (s : string) (ws : list string) : Prop := ws ≠ [] ∧ joined ws = s ∧ Forall no_space ws.
Definition glued (ws : list string) : string := foldr String.append "" ws.

(** The document has the keyword [k] with the locations [ls]. *)
Definition has_keyword (d : DocIndex) (k : string) (ls : list Z) : Prop :=
  ∃ kw, kw ∈ Keywords d ∧ Text kw = k ∧ Starts kw = ls.

(** What the split modes make out of the pieces [ws] of the text: every non-empty
    piece, and for each of them the text up to it, and (mode 6) every stretch of text
    that begins right after it. *)
Definition split_keyword (mode6 : Prop) (ws : list string) (k : string) : Prop :=
  ∃ i w, ws !! i = Some w ∧ w ≠ "" ∧
    (k = w ∨ k = glued (take (S i) ws) ∨
     (mode6 ∧ ∃ j, (S i < j <= length ws)%nat ∧ k = glued (drop (S i) (take j ws)))).

(** Options under which the text is split at spaces. *)
Definition whole_words (o : SegOpts) : Prop := Using o = 4 ∨ (NotUseGse o = true ∧ Using o = 0).
