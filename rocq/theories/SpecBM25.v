(** Specification vocabulary for scores. *)
From Coq Require Import Floats.SpecFloat.
From Verif Require Import ModelLookup SpecIndexer SpecSearch.

(** 2^k as a float32 *)
Definition pow2 (k : Z) : F := S754_finite false (2 ^ 23)%positive (k - 23).

(** a float32 x with 0 <= x < 2^k *)
Definition from_0_to (k : Z) (x : F) : Prop :=
  valid_binary 24 128 x = true ∧ f_ltb x f_zero = false ∧ f_ltb x (pow2 k) = true.

(** a number (+Inf included), not negative *)
Definition a_score (x : F) : Prop := f_eqb x x = true ∧ f_ltb x f_zero = false.

(** BM25 parameters in the usual range: K1 in (0, 2^10), B in [0, 1] *)
Definition usual (p : BM25Params) : Prop :=
  from_0_to 10 (K1 p) ∧ f_gtb (K1 p) f_zero = true ∧
  from_0_to 10 (B p) ∧ f_ltb (f32_of_Z 1) (B p) = false.

(** math.Log2 at the arguments it gets (which are at least 1 and below 2^64) *)
Definition usual_log2 (log2 : F → F) : Prop := ∀ N df, 0 < N < 2 ^ 63 → 0 < df < 2 ^ 63 →
  match log2 (f64_add (f64_div (f64_of_Z N) (f64_of_Z df)) (f64_of_Z 1)) with
  | S754_zero _ => True
  | S754_finite s m e => s = false ∧ Z.log2 (Zpos m) + e < 7
  | _ => False
  end.

(** What documents can carry: lengths below 2^100, frequencies below 2^64. *)
Definition usual_doc (d : DocIndex) : Prop :=
  from_0_to 100 (TokenLen d) ∧
  Forall (λ kw, from_0_to 64 (Frequency kw) ∧ zlen (Starts kw) < 2 ^ 63) (Keywords d).
