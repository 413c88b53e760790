(** Specification vocabulary: the BM25 formula over the real numbers. *)
From Coq Require Import Reals Floats.SpecFloat.
From Verif Require Import ModelLookup ModelPipe ModelEngine SpecIndexer SpecSearch SpecRank SpecPipe SpecEngine SpecEnd SpecScored.

(** The real number that a finite float stands for *)
Definition value (x : F) : R :=
  match x with S754_finite s m e => (IZR (if s then Zneg m else Zpos m) * powerRZ 2 e)%R | _ => 0%R end.
Definition a_number (x : F) : Prop := match x with S754_zero _ | S754_finite _ _ _ => True | _ => False end.

(** log2 (N/df + 1) * f * (k1+1) / (f + k1 * (1 - b + b * len/avg)) *)
Definition log2_of (v : R) : R := (ln v / ln 2)%R.
Definition exact_term (k1 b : R) (N df : Z) (f len avg : R) : R :=
  (log2_of (IZR N / IZR df + 1) * f * (k1 + 1) / (f + k1 * (1 - b + b * len / avg)))%R.
(** The sum over the tokens: [terms] has for each token the number of documents with it and
    its frequency in the document. *)
Definition exact_bm25 (p : BM25Params) (N : Z) (avg len : R) (terms : list (Z * R)) : R :=
  foldr Rplus 0%R ((λ t, exact_term (value (K1 p)) (value (B p)) N (fst t) (snd t) len avg) <$> terms).

(** math.Log2 has a small relative error from 2 on (it adds the exponent to the logarithm of
    the mantissa; just above 1 these cancel, and the error would not be small). *)
Definition accurate_log2 (log2 : F → F) : Prop := ∀ x,
  valid_binary 53 1024 x = true → a_number x → (2 <= value x <= IZR (2 ^ 64))%R →
  valid_binary 53 1024 (log2 x) = true ∧ a_number (log2 x) ∧
  (Rabs (value (log2 x) - log2_of (value x)) <= / IZR (2 ^ 40) * log2_of (value x))%R.

(** Parameters neither tiny nor huge: K1 from 2^-20 to 2^20, B zero or from 2^-20 to 1 *)
Definition modest (p : BM25Params) : Prop :=
  (valid_binary 24 128 (K1 p) = true ∧ a_number (K1 p) ∧ (/ IZR (2 ^ 20) <= value (K1 p) <= IZR (2 ^ 20))%R) ∧
  (valid_binary 24 128 (B p) = true ∧ a_number (B p) ∧ (value (B p) = 0 ∨ / IZR (2 ^ 20) <= value (B p))%R ∧ (value (B p) <= 1)%R).
(** Frequencies: zero, or from 2^-20 to 2^24 *)
Definition modest_freq (f : F) : Prop :=
  valid_binary 24 128 f = true ∧ a_number f ∧ (value f = 0 ∨ / IZR (2 ^ 20) <= value f)%R ∧ (value f <= IZR (2 ^ 24))%R.

(** [x] is [y] up to a relative error of (12 + t) 2^-22. *)
Definition close (t : nat) (x y : R) : Prop := (Rabs (x - y) <= INR (12 + t) * / IZR (2 ^ 22) * y)%R.

(** The documents of a shard: fewer than 2^24, their lengths whole numbers with a sum
    between 0 and 2^24, modest frequencies; with locations, every keyword has one. *)
Definition modest_docs (ity : Z) (D : list DocIndex) : Prop :=
  zlen D < 2 ^ 24 ∧
  (∃ zl : DocIndex → Z, (∀ d, d ∈ D → TokenLen d = f32_of_Z (zl d) ∧ 0 <= zl d) ∧ 0 < foldr Z.add 0 (zl <$> D) < 2 ^ 24) ∧
  ∀ d kw, d ∈ D → kw ∈ Keywords d →
    if ity =? LocsIndex then 0 < zlen (Starts kw) < 2 ^ 24 else modest_freq (Frequency kw).

(** The score of the document [d], one of the documents [D]; [kws] are its keywords that the
    search is for. *)
Definition occurrences (ity : Z) (kw : KeywordIndex) : R :=
  if ity =? LocsIndex then IZR (zlen (Starts kw)) else value (Frequency kw).
Definition exact_score (ity : Z) (p : BM25Params) (D : list DocIndex) (tokens : list string) (d : DocIndex) (kws : list KeywordIndex) : R :=
  exact_bm25 p (zlen D) (foldr Rplus 0 ((λ d, value (TokenLen d)) <$> D) / IZR (zlen D))%R (value (TokenLen d))
    (zip (carriers D <$> tokens) (occurrences ity <$> kws)).

(** [y] is the score that the entry [h] of an answer should have: that of the document of
    this id, among the documents of the calls [cs] in its shard. *)
Definition exact_entry (ity : Z) (p : BM25Params) (murmur : string → Z) (n : Z) (cs : list ecall) (tokens : list string)
    (h : ScoredDoc) (y : R) : Prop :=
  ∃ d f ct a fo kws, EIndex d f ct a fo ∈ cs ∧ DocId d = sdDocId h ∧ hit_kws d tokens kws ∧
    y = exact_score ity p (shard_docs murmur n (shard_for murmur n (DocId d) ct) cs) tokens d kws.

(** [y1] is not smaller than [y2], up to a relative error of (12 + t) 2^-21. *)
Definition hardly_below (t : nat) (y2 y1 : R) : Prop := (y2 * (1 - INR (12 + t) * / IZR (2 ^ 21)) <= y1)%R.

(** The entries of the answer have their scores, and stand in the order of their exact scores
    up to nearly equal ones. *)
Definition ranked_by_bm25 (ity : Z) (p : BM25Params) (murmur : string → Z) (n : Z) (cs : list ecall) (req : SearchReq)
    (out : list ScoredDoc) : Prop :=
  let t := length (rqTokens req) in
  (∀ h, h ∈ out → ∃ v y, sdScores h = [v] ∧ exact_entry ity p murmur n cs (rqTokens req) h y ∧ a_number v ∧ close t (value v) y) ∧
  ∀ i j h1 h2, (i < j)%nat → out !! i = Some h1 → out !! j = Some h2 → ∃ y1 y2,
    exact_entry ity p murmur n cs (rqTokens req) h1 y1 ∧ exact_entry ity p murmur n cs (rqTokens req) h2 y2 ∧
    if ReverseOrder (rqOpts req) then hardly_below t y1 y2 else hardly_below t y2 y1.
