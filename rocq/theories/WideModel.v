(** General band matrices: the part of dal/math/matrix/banded.cpp that is not tridiagonal. *)
From Coq Require Import ZArith List Bool Arith.
From Verif Require Import Base Vec LinNum LinModel.
Import ListNotations.
Section Wide.
Context {L : Lin}.

(** BandElements_, banded.cpp:120-146. The rows are those of Matrix_, whose operator() indexes its row hooks without a check: a row beyond the
    last is undefined behaviour. Rows and columns are natural numbers (negative ones are left out). *)
Record band := Band { b_cols : nat; b_below : nat; b_rows : list (list num) }.
Definition band_new (size n_above n_below : nat) : band := Band (1 + n_below + n_above) n_below (repeat (repeat zero (1 + n_below + n_above)) size).
Definition size (b : band) : nat := length (b_rows b).
(** the column in the store, lines 134, 142: col - row + nBelow_, if within the band *)
Definition my_col (b : band) (row col : nat) : option nat :=
  if (row <=? col + b_below b)%nat && (col + b_below b - row <? b_cols b)%nat then Some (col + b_below b - row)%nat else None.
Definition band_at (b : band) (row col : nat) : outcome num :=
  match my_col b row col with Some c => do r <- get (b_rows b) row; get r c | None => Ok zero end.
Definition band_put (b : band) (row col : nat) (v : num) : outcome band :=
  match my_col b row col with
  | Some c => do r <- get (b_rows b) row; do r' <- put r c v; do rs <- put (b_rows b) row r'; Ok (Band (b_cols b) (b_below b) rs)
  | None => Throw
  end.
(** Banded_::Set and Add, lines 298-299 *)
Definition band_set := band_put.
Definition band_add (b : band) (row col : nat) (v : num) : outcome band :=
  match my_col b row col with Some _ => do o <- band_at b row col; band_put b row col (nadd o v) | None => Throw end.

(** BandedMultiply, lines 151-163 *)
Fixpoint mul_cols (transpose : bool) (m : band) (x : list num) (ii jj k : nat) (b : list num) : outcome (list num) :=
  match k with
  | O => Ok b
  | S k' =>
      do v <- band_at m ii jj; do xv <- get x (if transpose then ii else jj);
      do o <- get b (if transpose then jj else ii); do b' <- put b (if transpose then jj else ii) (nadd o (nmul xv v));
      mul_cols transpose m x ii (S jj) k' b'
  end.
Fixpoint mul_rows (transpose : bool) (m : band) (x : list num) (n ii k : nat) (b : list num) : outcome (list num) :=
  match k with
  | O => Ok b
  | S k' =>
      let stop := Nat.min n (ii + b_cols m - b_below m) in
      let start := (ii - b_below m)%nat in
      do b' <- mul_cols transpose m x ii start (stop - start) b; mul_rows transpose m x n (S ii) k' b'
  end.
Definition band_multiply (transpose : bool) (m : band) (x : list num) : outcome (list num) :=
  let n := length x in if (size m =? n)%nat then mul_rows transpose m x n 0 n (repeat zero n) else Throw.

(** BandedLSolve, lines 166-178; in place (x is b) when b is not given: b[ii] is then read from x *)
Fixpoint lsolve_row (m : band) (x : list num) (ii jj k : nat) (residual : num) : outcome num :=
  match k with O => Ok residual | S k' => do xv <- get x jj; do v <- band_at m ii jj; lsolve_row m x ii (S jj) k' (nsub residual (nmul xv v)) end.
Fixpoint lsolve_rows (m : band) (b : option (list num)) (ii k : nat) (x : list num) : outcome (list num) :=
  match k with
  | O => Ok x
  | S k' =>
      do b0 <- get (match b with Some w => w | None => x end) ii;
      let start := (ii - b_below m)%nat in do r <- lsolve_row m x ii start (ii - start) b0;
      do d <- band_at m ii ii; if is_zero d then Throw else do x' <- put x ii (ndiv r d); lsolve_rows m b (S ii) k' x'
  end.
Definition lsolve (m : band) (b x : list num) : outcome (list num) :=
  if negb (b_cols m =? b_below m + 1)%nat then Throw else
  let n := length b in if (size m =? n)%nat then lsolve_rows m (Some b) 0 n (resized x n) else Throw.
Definition lsolve_in_place (m : band) (x : list num) : outcome (list num) :=
  if negb (b_cols m =? b_below m + 1)%nat then Throw else
  let n := length x in if (size m =? n)%nat then lsolve_rows m None 0 n x else Throw.
(** BandedLTransposeSolve, lines 181-193: the columns start at max(n - 1, ii + nBelow_) *)
Fixpoint ltsolve_row (m : band) (x : list num) (ii jj k : nat) (residual : num) : outcome num :=
  match k with O => Ok residual | S k' => do xv <- get x jj; do v <- band_at m jj ii; ltsolve_row m x ii (jj - 1) k' (nsub residual (nmul xv v)) end.
Fixpoint ltsolve_rows (m : band) (b : list num) (n k : nat) (x : list num) : outcome (list num) :=
  match k with
  | O => Ok x
  | S ii =>
      do b0 <- get b ii; let start := Nat.max (n - 1) (ii + b_below m) in do r <- ltsolve_row m x ii start (start - ii) b0;
      do d <- band_at m ii ii; if is_zero d then Throw else do x' <- put x ii (ndiv r d); ltsolve_rows m b n ii x'
  end.
Definition ltsolve (m : band) (b x : list num) : outcome (list num) :=
  if negb (b_cols m =? b_below m + 1)%nat then Throw else
  let n := length b in if (size m =? n)%nat then ltsolve_rows m b n n (resized x n) else Throw.

(** Banded_::IsSymmetric, lines 281-291: true only if every difference looked at is zero *)
Fixpoint sym_cols (m : band) (ii jj k : nat) : outcome bool :=
  match k with
  | O => Ok true
  | S k' => do a <- band_at m ii jj; do b <- band_at m jj ii; if negb (is_zero (nsub a b)) then Ok false else sym_cols m ii (S jj) k'
  end.
Fixpoint sym_rows (m : band) (n width ii k : nat) : outcome bool :=
  match k with
  | O => Ok true
  | S k' => let start := (ii - width)%nat in
            do r <- sym_cols m ii start (S (Nat.max (n - 1) (ii + width)) - start); if r then sym_rows m n width (S ii) k' else Ok false
  end.
Definition is_symmetric (m : band) : outcome bool :=
  let n := size m in sym_rows m n (Nat.max (b_below m) (b_cols m - b_below m - 1)) 0 n.

(** BandedCholesky_, lines 200-223: the factor is made with the band widths the other way round (n_above = nBelow_, n_below = 0) *)
Definition small : num := ndiv one (nmul (of_nat 1000) (nmul (of_nat 1000) (nmul (of_nat 1000) (of_nat 100)))).
Fixpoint chol_residual (v : band) (ii jj kk k : nat) (r : num) : outcome num :=
  match k with O => Ok r | S k' => do a <- band_at v ii kk; do b <- band_at v jj kk; chol_residual v ii jj (S kk) k' (nsub r (nmul a b)) end.
Fixpoint bchol_cols (llt v : band) (ii imin jj k : nat) : outcome band :=
  match k with
  | O => Ok v
  | S k' =>
      do r0 <- band_at llt ii jj; do r <- chol_residual v ii jj imin (jj - imin) r0;
      do v' <- (if (jj <? ii)%nat then
                  if is_zero r then band_put v ii jj zero
                  else do d <- band_at v jj jj; if is_zero d then Throw else band_put v ii jj (ndiv r d)
                else if nltb (nopp small) r then band_put v ii ii (nsqrt r) else Throw);
      bchol_cols llt v' ii imin (S jj) k'
  end.
Fixpoint bchol_rows (llt v : band) (ii k : nat) : outcome band :=
  match k with
  | O => Ok v
  | S k' => let imin := (ii - b_below llt)%nat in do v' <- bchol_cols llt v ii imin imin (S ii - imin); bchol_rows llt v' (S ii) k'
  end.
Definition band_cholesky (llt : band) : outcome band :=
  let v := band_new (size llt) (b_below llt) 0 in
  if (b_cols llt =? 2 * b_below llt + 1)%nat then bchol_rows llt v 0 (size llt) else Throw.
(** Banded_::Decompose, lines 292-295 *)
Definition band_decompose (m : band) : outcome band := do s <- is_symmetric m; if s then band_cholesky m else Throw.

(** LowerBandAccumulator_, lines 347-391. Add: the loop over the rows, from iRow = size of v + offset down; k is iRow + 1. The padding of an
    empty v (lines 363-364) is left out: an empty v has already ended the loop as all zero *)
Definition all_zero (v : list num) : bool := forallb is_zero v.
Fixpoint rotate_pairs (c s : num) (v row : list num) : list num * list num :=
  match v, row with
  | pv :: v', pr :: row' =>
      let save := pr in
      let (v1, r1) := rotate_pairs c s v' row' in (nsub (nmul c pv) (nmul s pr) :: v1, nadd (nmul c pr) (nmul s save) :: r1)
  | _, _ => (v, row)
  end.
Definition back (v : list num) : num := last v zero.
Fixpoint acc_loop (cols : nat) (rows : list (list num)) (v : list num) (k : nat) : outcome (list (list num)) :=
  match k with
  | O => Ok rows
  | S i =>
      do row <- get rows i;
      let head := firstn (cols - length v) row in
      if all_zero row then put rows i (head ++ v)
      else if all_zero v then Ok rows
      else
        let r := nsqrt (nadd (square (back v)) (square (back row))) in
        let (v1, t1) := rotate_pairs (ndiv (back row) r) (ndiv (back v) r) v (skipn (cols - length v) row) in
        do rows1 <- put rows i (head ++ t1);
        if negb (is_zero (back v1)) then Throw else
        (* i is now the row below; with i = 0 the loop is over *)
        acc_loop cols rows1 (if (length v1 <=? i - 1)%nat && (1 <=? i)%nat then back v1 :: removelast v1 else removelast v1) i
  end.
Definition acc_new (size n_below : nat) : list (list num) := repeat (repeat zero (n_below + 1)) size.
Definition acc_add (cols : nat) (rows : list (list num)) (v : list num) (offset : Z) : outcome (list (list num)) :=
  let i := (Z.of_nat (length v) + offset)%Z in
  if (cols <? length v)%nat || (Z.of_nat (length rows) <=? i)%Z then Throw else acc_loop cols rows v (Z.to_nat (i + 1)).
(** SolveLeft and SolveRight, lines 385-391: the same call *)
Definition acc_solve_left (cols : nat) (rows : list (list num)) (b x : list num) := lsolve (Band cols (cols - 1) rows) b x.
Definition acc_solve_right (cols : nat) (rows : list (list num)) (b x : list num) := lsolve (Band cols (cols - 1) rows) b x.
End Wide.
