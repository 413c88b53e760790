(** Specification vocabulary for the example programs. *)
From Verif Require Import ModelExamples SpecIndexer SpecSearch SpecRank SpecEnd SpecScored.

(** * Reading *)
(** [sep] occurs in [s] for the first time after [a], and [b] follows. *)
Definition first_cut (sep s a b : string) : Prop :=
  s = (a +:+ sep +:+ b)%string ∧ ∀ a' b', s = (a' +:+ sep +:+ b')%string → (String.length a <= String.length a')%nat.
(** The fields of [s] *)
Inductive fields (sep : string) : string → list string → Prop :=
  | fields_last s : (∀ a b, s ≠ (a +:+ sep +:+ b)%string) → fields sep s [s]
  | fields_more s a b l : first_cut sep s a b → fields sep b l → fields sep s (a :: l).

(** The lines that a scanner reads from the pieces of the file: without a return sign at the
    end, and up to the first that has 65536 bytes or more *)
Definition without_cr (l l' : string) : Prop :=
  let cr := String (Ascii.ascii_of_nat 13) "" in
  l = (l' +:+ cr)%string ∨ l = l' ∧ ∀ a, l ≠ (a +:+ cr)%string.
Inductive scanned : list string → list string → Prop :=
  | scanned_end : scanned [""] []
  | scanned_last l l' : l ≠ "" → Z.of_nat (String.length l) < 65536 → without_cr l l' → scanned [l] [l']
  | scanned_long l ps : 65536 <= Z.of_nat (String.length l) → scanned (l :: ps) []
  | scanned_more l l' ps ls : ps ≠ [] → Z.of_nat (String.length l) < 65536 → without_cr l l' → scanned ps ls → scanned (l :: ps) (l' :: ls).

(** [s] consists of decimal digits and denotes [z]. *)
Definition digit_char (d : nat) : Ascii.ascii := Ascii.ascii_of_nat (48 + d).
Inductive decimal : Z → string → Z → Prop :=
  | decimal_end acc : decimal acc "" acc
  | decimal_digit acc d s z : (d < 10)%nat → decimal (acc * 10 + Z.of_nat d) s z → decimal acc (String (digit_char d) s) z.

(** A line of a weibo: ten fields, the last one is not empty. *)
Definition weibo_line (l ts reposts text : string) : Prop :=
  text ≠ "" ∧ ∃ f0 f2 f3 f5 f6 f7 f8, fields "||||" l [f0; ts; f2; f3; reposts; f5; f6; f7; f8; text].
(** [num mx s z]: a field [s] stands for [z] (if it is a number at all) *)
Definition num (mx : Z) (s : string) (z : Z) : Prop :=
  0 <= z <= mx ∧ ∀ v, decimal 0 s v → z = Z.min v mx.
Inductive weibos : list string → list (string * WSF) → Prop :=
  | weibos_end : weibos [] []
  | weibos_skip l ls ws : (∀ ts rp text, ¬ weibo_line l ts rp text) → weibos ls ws → weibos (l :: ls) ws
  | weibos_take l ls ws ts rp text tz rz : weibo_line l ts rp text → num (2 ^ 32 - 1) ts tz → num (2 ^ 32 - 1) rp rz →
      weibos ls ws → weibos (l :: ls) ((text, mkWSF tz rz (strlen text)) :: ws).

(** * Ranking *)
(** The documented order of examples/weibo: the later day first, then the greater whole part
    of BM25, the more often reposted, the longer. [b]: the whole part of BM25 *)
Definition weibo_above (w1 : WSF) (b1 : Z) (w2 : WSF) (b2 : Z) : Prop :=
  let day w := wsTime w / 86400 in
  day w2 < day w1 ∨ day w2 = day w1 ∧ (b2 < b1 ∨ b2 = b1 ∧
    (wsReposts w2 < wsReposts w1 ∨ wsReposts w2 = wsReposts w1 ∧ wsLen w2 < wsLen w1)).
(** Whole numbers that float32 can hold *)
Definition small (z : Z) : Prop := 0 <= z < 2 ^ 24.
(** [z] is the whole part of the number [x]: x is m * 2^e *)
Definition whole_part (x : F) (z : Z) : Prop :=
  match x with
  | SpecFloat.S754_zero _ => z = 0
  | SpecFloat.S754_finite s m e =>
    let z' := if s then - z else z in
    0 <= z' ∧ z' * 2 ^ Z.max 0 (- e) <= Zpos m * 2 ^ Z.max 0 e < (z' + 1) * 2 ^ Z.max 0 (- e)
  | _ => False
  end.

(** * What the weibo program prints *)
Section Weibo.
  Context (cvt : F → Z) (boxW : WSF → Iface) (X : Ext) (stop : gset string) (so : SegOpts).
  (** The document number [i] of the file, as the engine gets it *)
  Definition weibo_doc (ws : list (string * WSF)) (i : nat) (w : string * WSF) (doc : DocIndex) : Prop :=
    ws !! i = Some w ∧ segDoc X stop so (pretty i) (mkData w.1 INil [] [] (boxW w.2)) = Some doc.
  Definition weibo_scores (w : WSF) (x : IndexedDoc) : list F :=
    [f32_of_Z (wsTime w / 86400); f32_of_Z (f_int cvt (BM25 x)); f32_of_Z (wsReposts w); f32_of_Z (wsLen w)].
  (** [told i doc x]: [x] is what the scoring function is told about the document *)
  Definition weibo_answers (told : string → DocIndex → IndexedDoc → Prop) (ws : list (string * WSF)) (tokens : list string)
      (full : list ScoredDoc) : Prop :=
    in_order false full ∧ NoDup (sdDocId <$> full) ∧
    (∀ h, h ∈ full → ∃ i w doc x, i ≠ O ∧ weibo_doc ws i w doc ∧ (∀ t, t ∈ tokens → t ∈ Text <$> Keywords doc) ∧
       told w.1 doc x ∧ TokenProximity x <= 150 ∧
       sdDocId h = pretty i ∧ sdScores h = weibo_scores w.2 x ∧ sdContent h = w.1 ∧ sdFields h = boxW w.2) ∧
    (∀ i w doc, i ≠ O → weibo_doc ws i w doc → (∀ t, t ∈ tokens → t ∈ Text <$> Keywords doc) →
       (∀ x, told w.1 doc x → TokenProximity x <= 150) → pretty i ∈ sdDocId <$> full).
  (** The lines printed: the scores of the entry, and the text of the document that it is for *)
  Definition weibo_printed (ws : list (string * WSF)) (out : list ScoredDoc) (shown : list (list F * string)) : Prop :=
    Forall2 (λ h p, p.1 = sdScores h ∧ ∃ i w, sdDocId h = pretty i ∧ ws !! i = Some w ∧ p.2 = w.1) out shown.
End Weibo.

(** * examples/codelab *)
(** A line with ten fields, and what it says *)
Definition codelab_line (l : string) (w : CWeibo) : Prop :=
  ∃ ts f2 rp f5 f6 f7 f8, fields "||||" l [cwId w; ts; f2; cwUser w; rp; f5; f6; f7; f8; cwText w] ∧
    num (2 ^ 64 - 1) ts (cwTime w) ∧ num (2 ^ 64 - 1) rp (cwReposts w).
(** [w] comes from the last line with its id. *)
Definition last_line (lines : list string) (w : CWeibo) : Prop :=
  ∃ before l after, lines = before ++ l :: after ∧ codelab_line l w ∧
    ∀ l' w', l' ∈ after → codelab_line l' w' → cwId w' ≠ cwId w.

Section Codelab.
  Context (asCSF : Iface → option CSF) (boxC : CSF → Iface) (X : Ext) (stop : gset string) (so : SegOpts).
  Definition codelab_doc (m : gmap string CWeibo) (id : string) (w : CWeibo) (doc : DocIndex) : Prop :=
    m !! id = Some w ∧ segDoc X stop so id (mkData (cwText w) INil [] [] (boxC (mkCSF (cwTime w) (cwReposts w)))) = Some doc.
  (** [told text doc x]: [x] is what the scoring function is told about the document *)
  Definition codelab_answers (told : string → DocIndex → IndexedDoc → Prop) (m : gmap string CWeibo) (tokens : list string)
      (full : list ScoredDoc) : Prop :=
    in_order false full ∧ NoDup (sdDocId <$> full) ∧
    (∀ h, h ∈ full → ∃ id w doc x, id ≠ "0" ∧ codelab_doc m id w doc ∧ (∀ t, t ∈ tokens → t ∈ Text <$> Keywords doc) ∧
       told (cwText w) doc x ∧ sdDocId h = id ∧ sdContent h = cwText w ∧
       sdScores h = codelabScore asCSF x (boxC (mkCSF (cwTime w) (cwReposts w)))) ∧
    (∀ id w doc, id ≠ "0" → codelab_doc m id w doc → (∀ t, t ∈ tokens → t ∈ Text <$> Keywords doc) → id ∈ sdDocId <$> full).
End Codelab.
