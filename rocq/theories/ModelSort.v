(** The uint64 sorting functions of core/uint64.go.

    The file holds every function twice, once for ascending order (lines
    14-253) and once for descending order (lines 257-496); the two copies
    differ only in their comparisons.  The model has each function once, with
    the comparisons of the copy as parameters:
    - [lt x y] is [x < y] in the first copy and [x > y] in the second,
    - [ge x y] is [x >= y] in the first and [x <= y] in the second,
    - [sm x y], used only in the search of symMerge (lines 205, 216 / 448,
      459), is [x >= y] in the first and [x < y] in the second (sic).

    [int] arithmetic is unbounded here: every index and size computed by the
    code is below four times the length of the slice in absolute value, and a
    slice of 8-byte elements is shorter than 2^60.  [None] is a panic (index out
    of range) or, in the loops below that take a [nat] bound on the number of
    iterations, a loop that runs longer than the bound; the theorems say that
    neither happens. *)
From Verif Require Import GoBase.

(** core/uint64.go:5-10 min *)
Definition min (a b : Z) : Z := if a <? b then a else b.

(** the assignment [data[i], data[j] = data[j], data[i]] *)
Definition swap (data : list Z) (i j : Z) : option (list Z) :=
  match zget data i, zget data j with
  | Some x, Some y =>
      match zset data i y with Some d1 => zset d1 j x | None => None end
  | _, _ => None
  end.

(** core/uint64.go:67-73, 310-316 swapRange; [n] is the number of rounds left *)
Fixpoint swapRangeLoop (n : nat) (data : list Z) (a b : Z) : option (list Z) :=
  match n with
  | O => Some data
  | S n' => match swap data a b with
            | Some d1 => swapRangeLoop n' d1 (a + 1) (b + 1)
            | None => None
            end
  end.
Definition swapRange (data : list Z) (a b n : Z) : option (list Z) :=
  swapRangeLoop (Z.to_nat n) data a b.

(** core/uint64.go:242-252, 485-495: the loop of rotate and the last line *)
Fixpoint rotateLoop (n : nat) (data : list Z) (p i j : Z) : option (list Z) :=
  if i =? j then swapRange data (p - i) p i
  else match n with
  | O => None
  | S n' =>
      if i >? j then
        match swapRange data (p - i) p j with
        | Some d1 => rotateLoop n' d1 p (i - j) j
        | None => None
        end
      else
        match swapRange data (p - i) (p + j - i) i with
        | Some d1 => rotateLoop n' d1 p i (j - i)
        | None => None
        end
  end.

(** core/uint64.go:229-253, 472-496 rotate *)
Definition rotate (data : list Z) (a m b : Z) : option (list Z) :=
  let i := m - a in
  if i =? 0 then Some data else
  let j := b - m in
  if j =? 0 then Some data else
  if i =? j then swapRange data a m i
  else rotateLoop (Z.to_nat (i + j)) data (a + i) i j.

Section comparisons.
Context (lt ge sm : Z → Z → bool).

(** core/uint64.go:27-34, 270-277 insertionSort: the inner loop; [n] bounds
    the number of rounds, at most j - a *)
Fixpoint insertLoop (n : nat) (data : list Z) (a j : Z) : option (list Z) :=
  if j >? a then
    match zget data j, zget data (j - 1) with
    | Some x, Some y =>
        if lt x y then
          match n with
          | O => None
          | S n' => match swap data j (j - 1) with
                    | Some d1 => insertLoop n' d1 a (j - 1)
                    | None => None
                    end
          end
        else Some data
    | _, _ => None
    end
  else Some data.

(** core/uint64.go:29-33, 272-276: the outer loop, [n] = rounds left = b - i *)
Fixpoint insertionLoop (n : nat) (data : list Z) (a i : Z) : option (list Z) :=
  match n with
  | O => Some data
  | S n' => match insertLoop (Z.to_nat (i - a)) data a i with
            | Some d1 => insertionLoop n' d1 a (i + 1)
            | None => None
            end
  end.
Definition insertionSort (data : list Z) (a b : Z) : option (list Z) :=
  insertionLoop (Z.to_nat (b - (a + 1))) data a (a + 1).

(** core/uint64.go:36-52, 279-295 siftDown; [n] bounds the number of rounds *)
Fixpoint siftLoop (n : nat) (data : list Z) (root hi first : Z) : option (list Z) :=
  let child := 2 * root + 1 in
  if child >=? hi then Some data else
  match n with
  | O => None
  | S n' =>
      match (if child + 1 <? hi then
               match zget data (first + child), zget data (first + child + 1) with
               | Some x, Some y => Some (if lt x y then child + 1 else child)
               | _, _ => None
               end
             else Some child) with
      | None => None
      | Some child =>
          match zget data (first + root), zget data (first + child) with
          | Some x, Some y =>
              if ge x y then Some data
              else match swap data (first + root) (first + child) with
                   | Some d1 => siftLoop n' d1 child hi first
                   | None => None
                   end
          | _, _ => None
          end
      end
  end.
Definition siftDown (data : list Z) (lo hi first : Z) : option (list Z) :=
  siftLoop (Z.to_nat hi) data lo hi first.

(** core/uint64.go:18-20, 261-263: the first loop of heapSort; [n] = rounds
    left = i + 1 *)
Fixpoint heapifyLoop (n : nat) (data : list Z) (hi first : Z) : option (list Z) :=
  match n with
  | O => Some data
  | S n' => match siftDown data (Z.of_nat n') hi first with
            | Some d1 => heapifyLoop n' d1 hi first
            | None => None
            end
  end.
(** core/uint64.go:21-24, 264-267: the second loop; [n] = rounds left = i + 1 *)
Fixpoint extractLoop (n : nat) (data : list Z) (first : Z) : option (list Z) :=
  match n with
  | O => Some data
  | S n' =>
      match swap data first (first + Z.of_nat n') with
      | Some d1 => match siftDown d1 0 (Z.of_nat n') first with
                   | Some d2 => extractLoop n' d2 first
                   | None => None
                   end
      | None => None
      end
  end.
(** core/uint64.go:14-25, 257-268 heapSort *)
Definition heapSort (data : list Z) (a b : Z) : option (list Z) :=
  let hi := b - a in
  match heapifyLoop (Z.to_nat (Z.quot (hi - 1) 2 + 1)) data hi a with
  | Some d1 => extractLoop (Z.to_nat hi) d1 a
  | None => None
  end.

(** the statement [if data[i] < data[j] { swap data[i], data[j] }] of
    core/uint64.go:56-64, 299-307 *)
Definition condSwap (data : list Z) (i j : Z) : option (list Z) :=
  match zget data i, zget data j with
  | Some x, Some y => if lt x y then swap data i j else Some data
  | _, _ => None
  end.
(** core/uint64.go:54-65, 297-308 medianOfThree *)
Definition medianOfThree (data : list Z) (m1 m0 m2 : Z) : option (list Z) :=
  match condSwap data m1 m0 with
  | Some d1 => match condSwap d1 m2 m1 with
               | Some d2 => condSwap d2 m1 m0
               | None => None
               end
  | None => None
  end.

(** core/uint64.go:88-98, 331-341: the first inner loop of doPivot; the result
    is (data, a, b); [n] bounds the number of rounds, at most c - b *)
Fixpoint pivotUp (n : nat) (data : list Z) (pivot a b c : Z) : option (list Z * Z * Z) :=
  if b <? c then
    match n with
    | O => None
    | S n' =>
        match zget data b, zget data pivot with
        | Some x, Some p =>
            if lt x p then pivotUp n' data pivot a (b + 1) c
            else if ge p x then
              match swap data a b with
              | Some d1 => pivotUp n' d1 pivot (a + 1) (b + 1) c
              | None => None
              end
            else Some (data, a, b)
        | _, _ => None
        end
    end
  else Some (data, a, b).

(** core/uint64.go:99-109, 342-352: the second inner loop; the result is
    (data, c, d) *)
Fixpoint pivotDown (n : nat) (data : list Z) (pivot b c d : Z) : option (list Z * Z * Z) :=
  if b <? c then
    match n with
    | O => None
    | S n' =>
        match zget data pivot, zget data (c - 1) with
        | Some p, Some x =>
            if lt p x then pivotDown n' data pivot b (c - 1) d
            else if ge x p then
              match swap data (c - 1) (d - 1) with
              | Some d1 => pivotDown n' d1 pivot b (c - 1) (d - 1)
              | None => None
              end
            else Some (data, c, d)
        | _, _ => None
        end
    end
  else Some (data, c, d).

(** core/uint64.go:87-116, 330-359: the outer loop; the result is
    (data, a, b, c, d); [n] bounds the number of rounds *)
Fixpoint pivotLoop (n : nat) (data : list Z) (pivot a b c d : Z)
    : option (list Z * Z * Z * Z * Z) :=
  match pivotUp (Z.to_nat (c - b)) data pivot a b c with
  | None => None
  | Some (data1, a1, b1) =>
      match pivotDown (Z.to_nat (c - b1)) data1 pivot b1 c d with
      | None => None
      | Some (data2, c1, d1) =>
          if b1 >=? c1 then Some (data2, a1, b1, c1, d1)
          else match n with
          | O => None
          | S n' => match swap data2 b1 (c1 - 1) with
                    | Some data3 => pivotLoop n' data3 pivot a1 (b1 + 1) (c1 - 1) d1
                    | None => None
                    end
          end
      end
  end.

(** core/uint64.go:76-83, 319-326: the choice of the pivot *)
Definition choosePivot (data : list Z) (lo hi : Z) : option (list Z) :=
  let m := lo + Z.quot (hi - lo) 2 in
  match (if hi - lo >? 40 then
           let s := Z.quot (hi - lo) 8 in
           match medianOfThree data lo (lo + s) (lo + 2 * s) with
           | Some d1 => match medianOfThree d1 m (m - s) (m + s) with
                        | Some d2 => medianOfThree d2 (hi - 1) (hi - 1 - s) (hi - 1 - 2 * s)
                        | None => None
                        end
           | None => None
           end
         else Some data) with
  | Some d1 => medianOfThree d1 lo m (hi - 1)
  | None => None
  end.

(** core/uint64.go:75-125, 318-368 doPivot; the result is (data, midlo, midhi) *)
Definition doPivot (data : list Z) (lo hi : Z) : option (list Z * Z * Z) :=
  match choosePivot data lo hi with
  | None => None
  | Some d0 =>
      match pivotLoop (Z.to_nat (hi - lo)) d0 lo (lo + 1) (lo + 1) hi hi with
      | None => None
      | Some (d1, a, b, c, d) =>
          let n := min (b - a) (a - lo) in
          match swapRange d1 lo (b - n) n with
          | None => None
          | Some d2 =>
              let n := min (hi - d) (d - c) in
              match swapRange d2 c (hi - n) n with
              | None => None
              | Some d3 => Some (d3, lo + b - a, hi - (d - c))
              end
          end
      end
  end.

(** core/uint64.go:127-147, 370-390 quickSort.  The next round of the loop is
    the second recursive call here: it runs with the same [maxDepth]. *)
Fixpoint quickSort (maxDepth : nat) (data : list Z) (a b : Z) : option (list Z) :=
  if b - a >? 7 then
    match maxDepth with
    | O => heapSort data a b
    | S depth =>
        match doPivot data a b with
        | None => None
        | Some (d1, mlo, mhi) =>
            if mlo - a <? b - mhi then
              match quickSort depth d1 a mlo with
              | Some d2 => quickSort depth d2 mhi b
              | None => None
              end
            else
              match quickSort depth d1 mhi b with
              | Some d2 => quickSort depth d2 a mlo
              | None => None
              end
        end
    end
  else if b - a >? 1 then insertionSort data a b
  else Some data.

(** core/uint64.go:151-154, 394-397: the number of rounds of
    [for i := len(data); i > 0; i >>= 1]; [n] bounds it *)
Fixpoint depthLoop (n : nat) (i : Z) : nat :=
  match n with
  | O => O
  | S n' => if i >? 0 then S (depthLoop n' (i ≫ 1)) else O
  end.
(** core/uint64.go:150-157 Asc, 393-400 Desc *)
Definition sortAll (data : list Z) : option (list Z) :=
  quickSort (2 * depthLoop (length data) (zlen data)) data 0 (zlen data).

(** core/uint64.go:160-167 IsSortedAsc, 403-410 IsSortedDesc; [n] is the number
    of rounds left, the value of i *)
Fixpoint isSortedLoop (n : nat) (data : list Z) : option bool :=
  match n with
  | O => Some true
  | S n' =>
      match zget data (Z.of_nat n), zget data (Z.of_nat n - 1) with
      | Some x, Some y => if lt x y then Some false else isSortedLoop n' data
      | _, _ => None
      end
  end.
Definition isSorted (data : list Z) : option bool :=
  isSortedLoop (Z.to_nat (zlen data - 1)) data.

(** core/uint64.go:203-210 and 214-221, 446-453 and 457-464: the binary search
    of symMerge *)
Fixpoint searchLoop (n : nat) (data : list Z) (p start r : Z) : option Z :=
  if start <? r then
    match n with
    | O => None
    | S n' =>
        let c := start + Z.quot (r - start) 2 in
        match zget data (p - c), zget data c with
        | Some x, Some y =>
            if sm x y then searchLoop n' data p (c + 1) r
            else searchLoop n' data p start c
        | _, _ => None
        end
    end
  else Some start.

(** core/uint64.go:193-227, 436-470 symMerge; [n] bounds the depth of the
    recursion *)
Fixpoint symMergeRec (n : nat) (data : list Z) (a m b : Z) : option (list Z) :=
  if (a >=? m) || (m >=? b) then Some data else
  match n with
  | O => None
  | S n' =>
      let mid := a + Z.quot (b - a) 2 in
      let n := mid + m in
      let p := n - 1 in
      match (if m >? mid then searchLoop (Z.to_nat (mid - (n - b))) data p (n - b) mid
             else searchLoop (Z.to_nat (m - a)) data p a m) with
      | None => None
      | Some start =>
          let end_ := n - start in
          match rotate data start m end_ with
          | None => None
          | Some d1 =>
              match symMergeRec n' d1 a start mid with
              | None => None
              | Some d2 => symMergeRec n' d2 mid end_ b
              end
          end
      end
  end.
Definition symMerge (data : list Z) (a m b : Z) : option (list Z) :=
  symMergeRec (Z.to_nat (b - a)) data a m b.

(** core/uint64.go:173-179, 416-422: the first loop of StableAsc / StableDesc
    and the line after it; [n] bounds the number of rounds *)
Fixpoint blocksLoop (n : nat) (data : list Z) (blockSize a b : Z) : option (list Z) :=
  if b <=? zlen data then
    match n with
    | O => None
    | S n' => match insertionSort data a b with
              | Some d1 => blocksLoop n' d1 blockSize b (b + blockSize)
              | None => None
              end
    end
  else insertionSort data a (zlen data).

(** core/uint64.go:182-188, 425-431: one round of the second loop *)
Fixpoint mergesLoop (n : nat) (data : list Z) (blockSize a b : Z) : option (list Z) :=
  if b <=? zlen data then
    match n with
    | O => None
    | S n' => match symMerge data a (a + blockSize) b with
              | Some d1 => mergesLoop n' d1 blockSize b (b + 2 * blockSize)
              | None => None
              end
    end
  else symMerge data a (a + blockSize) (zlen data).

(** core/uint64.go:181-190, 424-433: the second loop *)
Fixpoint stableLoop (n : nat) (data : list Z) (blockSize : Z) : option (list Z) :=
  if blockSize <? zlen data then
    match n with
    | O => None
    | S n' => match mergesLoop (length data) data blockSize 0 (2 * blockSize) with
              | Some d1 => stableLoop n' d1 (blockSize * 2)
              | None => None
              end
    end
  else Some data.

(** core/uint64.go:170-191 StableAsc, 413-434 StableDesc *)
Definition stable (data : list Z) : option (list Z) :=
  match blocksLoop (length data) data 20 0 20 with
  | Some d1 => stableLoop (length data) d1 20
  | None => None
  end.
End comparisons.

(** core/uint64.go:14-253: the ascending copy *)
Definition Asc : list Z → option (list Z) := sortAll Z.ltb Z.geb.
Definition StableAsc : list Z → option (list Z) := stable Z.ltb Z.geb.
Definition IsSortedAsc : list Z → option bool := isSorted Z.ltb.
(** core/uint64.go:257-496: the descending copy *)
Definition Desc : list Z → option (list Z) := sortAll Z.gtb Z.leb.
Definition StableDesc : list Z → option (list Z) := stable Z.gtb Z.ltb.
Definition IsSortedDesc : list Z → option bool := isSorted Z.gtb.

