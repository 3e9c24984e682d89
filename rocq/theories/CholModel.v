(** Dense decompositions: Cholesky with regularisation, diagonal and lower triangular matrices. *)
From Coq Require Import ZArith List Bool Arith.
From Verif Require Import Base Vec LinNum LinModel.
Import ListNotations.
Section Chol.
Context {L : Lin}.

(** SquareMatrix_, dal/math/matrix/squarematrix.hpp: n rows of n numbers. The loops below run up to Rows(), so all matrix indices are
    in range; vectors are given by the caller, and an index outside them is undefined behaviour. *)
Definition sq := list (list num).
Definition cell (m : sq) (i j : nat) : num := nth j (nth i m []) zero.
Definition set_cell (m : sq) (i j : nat) (v : num) : sq := set_nth m i (set_nth (nth i m []) j v).
Definition sq_row (m : sq) (i : nat) : list num := nth i m [].
Definition sq_col (m : sq) (j : nat) : list num := map (fun r => nth j r zero) m.

(** CholeskyImpl, dal/math/matrix/cholesky.cpp:17-37. The matrix read may be the one written (CholeskySolve): then src is None.
    One entry of a row, lines 24-29. *)
Definition source (src : option sq) (out : sq) : sq := match src with Some a => a | None => out end.
Fixpoint chol_row (src : option sq) (reg mean : num) (i j n : nat) (out : sq) : sq :=
  match n with
  | O => out
  | S k =>
      let locked := inner zero (firstn j (sq_row out i)) (sq_row out j) in
      let need := nsub (cell (source src out) j i) locked in
      let v := if neqb need zero then zero
               else ndiv (nmul need (cell out j j)) (nadd (square (cell out j j)) (square (nmul reg mean))) in
      chol_row src reg mean i (S j) k (set_cell out i j v)
  end.
(** lines 20-35: the rows, with the running mean of the diagonal *)
Fixpoint chol_rows (src : option sq) (reg mean : num) (i n : nat) (out : sq) : num * sq :=
  match n with
  | O => (mean, out)
  | S k =>
      let out1 := chol_row src reg mean i 0 i out in
      let locked := inner zero (firstn i (sq_row out1 i)) (sq_row out1 i) in
      let need := nsub (cell (source src out1) i i) locked in
      let d := nsqrt (nmax zero need) in
      let out2 := set_cell out1 i i d in
      chol_rows src reg (nadd mean (ndiv (nsub (cell out2 i i) mean) (nadd one (of_nat i)))) (S i) k out2
  end.
Definition chol_impl (src : option sq) (reg : num) (out : sq) : num * sq := chol_rows src reg zero 0 (length (source src out)) out.

(** Cholesky_, lines 44-60: the constructor. Without a matrix to work in, a new one is made, whose entries are all the number of columns
    (SquareMatrix_(rows, cols) takes its second argument as the value). *)
Fixpoint invert_diag (reg : num) (i n : nat) (m : sq) : sq :=
  match n with O => m | S k => invert_diag reg (S i) k (set_cell m i i (ndiv (cell m i i) (nadd reg (square (cell m i i))))) end.
Definition cholesky_in (src : option sq) (out : sq) (regularization : num) : outcome sq :=
  let (mean, low) := chol_impl src regularization out in
  let reg := square (nmul regularization mean) in
  if nltb zero reg then Ok (invert_diag reg 0 (length low) low) else Throw.
Definition cholesky (a : sq) (regularization : num) : outcome sq :=
  cholesky_in (Some a) (repeat (repeat (of_nat (length a)) (length a)) (length a)) regularization.

(** XMultiply_af, lines 67-82. The products of the first loop run to the end of x. *)
Definition mul_lt (low : sq) (x : list num) (i : nat) : num :=
  nadd (inner zero (skipn (i + 1) x) (skipn (i + 1) (sq_col low i))) (ndiv (nth i x zero) (cell low i i)).
Definition mul_l (low : sq) (t : list num) (i : nat) : num :=
  nadd (inner zero (firstn i t) (sq_row low i)) (ndiv (nth i t zero) (cell low i i)).
Definition chol_multiply (low : sq) (x : list num) : outcome (list num) :=
  let n := length low in
  if negb (length x =? n)%nat then UB else
  let temp := map (mul_lt low x) (seq 0 n) in
  Ok (map (mul_l low temp) (seq 0 n)).

(** XSolve_af, lines 84-94; x is not resized *)
Fixpoint solve_forward (low : sq) (b : list num) (i n : nat) (x : list num) : list num :=
  match n with
  | O => x
  | S k => let r := nsub (nth i b zero) (inner zero (firstn i x) (sq_row low i)) in
           solve_forward low b (S i) k (set_nth x i (nmul r (cell low i i)))
  end.
(** the transform of the first i elements: x[k] + (-x[i]) * low(i, k) *)
Fixpoint lower_head (c : num) (i : nat) (x row : list num) : list num :=
  match i, x, row with S i', v :: x', r :: row' => nadd v (nmul (nopp c) r) :: lower_head c i' x' row' | _, _, _ => x end.
Fixpoint solve_backward (low : sq) (i : nat) (x : list num) : list num :=
  match i with
  | O => x
  | S k => let v := nmul (nth k x zero) (cell low k k) in
           solve_backward low k (lower_head v k (set_nth x k v) (sq_row low k))
  end.
Definition chol_solve (low : sq) (b x : list num) : outcome (list num) :=
  let n := length low in
  if (length b <? n)%nat || (length x <? n)%nat then UB else
  Ok (solve_backward low n (solve_forward low b 0 n x)).

(** MakeCorrelated, lines 98-106: the correlated numbers; what is returned is the start of these, not the next independent number *)
Inductive next := NextInput (n : nat) | StartOfOutput.
Definition chol_correlate (low : sq) (iid : list num) : outcome (list num * next) :=
  let n := length low in
  if (length iid <? n)%nat then UB else Ok (map (mul_l low iid) (seq 0 n), StartOfOutput).

(** CholeskySolve, lines 114-118: the matrix is overwritten; each right-hand side is solved in place (Solve copies it first,
    decompositions.cpp:9-23) *)
Fixpoint solve_each (low : sq) (bs : list (list num)) : outcome (list (list num)) :=
  match bs with [] => Ok [] | b :: r => do x <- chol_solve low b b; do r' <- solve_each low r; Ok (x :: r') end.
Definition cholesky_solve (a : sq) (bs : list (list num)) (regularization : num) : outcome (sq * list (list num)) :=
  do low <- cholesky_in None a regularization; do xs <- solve_each low bs; Ok (low, xs).

(** QForm, dal/math/matrix/sparse.cpp:13-25, for a decomposition whose Solve(b, &x) is given with the old contents of x.
    The vector wij starts empty and is reused. The form is symmetric by construction; the entries on and below the diagonal are returned. *)
Fixpoint qform_loop (solve : list num -> list num -> outcome (list num)) (rows : list (list num)) (i n : nat) (wij : list num) : outcome (list (list num)) :=
  match n with
  | O => Ok []
  | S k =>
      do row <- get rows i;
      do w <- solve row wij;
      do rest <- qform_loop solve rows (S i) k w;
      Ok (map (fun r => inner zero w r) (firstn (i + 1) rows) :: rest)
  end.
Definition qform (solve : list num -> list num -> outcome (list num)) (rows : list (list num)) : outcome (list (list num)) :=
  qform_loop solve rows 0 (length rows) [].

(** Diagonal_, dal/math/matrix/decompositionsmisc.cpp:30-56 *)
Definition protected_divide (l r : num) : outcome num := if is_zero r then Throw else Ok (ndiv l r).
Fixpoint diag_solve (b vals : list num) : outcome (list num) :=
  match b, vals with
  | x :: b', v :: vals' => do q <- protected_divide x v; do r <- diag_solve b' vals'; Ok (q :: r)
  | [], _ => Ok []
  | _ :: _, [] => UB
  end.
Fixpoint diag_multiply (x vals : list num) : outcome (list num) :=
  match x, vals with
  | x0 :: x', v :: vals' => do r <- diag_multiply x' vals'; Ok (nmul x0 v :: r)
  | [], _ => Ok []
  | _ :: _, [] => UB
  end.
Fixpoint diag_correlate (vals iid : list num) : outcome (list num) :=
  match vals, iid with
  | v :: vals', z :: iid' => if is_negative v then Throw else do r <- diag_correlate vals' iid'; Ok (nmul (nsqrt (nmax v zero)) z :: r)
  | [], _ => Ok []
  | _ :: _, [] => UB
  end.

(** LowerTriangular_, lines 58-102. Only entries on and below the diagonal are read. *)
Definition tri_multiply_left (m : sq) (x : list num) : outcome (list num) :=
  let n := length m in if (length x <? n - 1)%nat then UB else Ok (map (fun i => inner zero (firstn i x) (sq_row m i)) (seq 0 n)).
Definition tri_multiply_right (m : sq) (x : list num) : outcome (list num) :=
  let n := length m in if negb (length x =? n)%nat then UB else Ok (map (fun i => inner zero (skipn i x) (skipn i (sq_col m i))) (seq 0 n)).
Fixpoint tri_forward (m : sq) (b : list num) (i n : nat) (x : list num) : outcome (list num) :=
  match n with
  | O => Ok x
  | S k => do bi <- get b i;
           do v <- protected_divide (nopp (inner (nopp bi) (firstn i x) (sq_row m i))) (cell m i i);
           tri_forward m b (S i) k (set_nth x i v)
  end.
Definition tri_solve_left (m : sq) (b x : list num) : outcome (list num) := let n := length m in tri_forward m b 0 n (resized x n).
Fixpoint tri_backward (m : sq) (b : list num) (i : nat) (x : list num) : outcome (list num) :=
  match i with
  | O => Ok x
  | S k => do bk <- get b k;
           do v <- protected_divide (nopp (inner (nopp bk) (skipn (k + 1) x) (skipn (k + 1) (sq_col m k)))) (cell m k k);
           tri_backward m b k (set_nth x k v)
  end.
Definition tri_solve_right (m : sq) (b x : list num) : outcome (list num) := let n := length m in tri_backward m b n (resized x n).
End Chol.
