(** Products of dense matrices and vectors, with the result possibly being one of the operands. *)
From Coq Require Import ZArith List Bool Arith.
From Verif Require Import Base Vec LinNum.
Import ListNotations.
Section Lin.
Context {L : Lin}.

(** Matrix_, dal/math/matrix/matrixs.hpp, as its rows and the number of columns (kept apart since there may be no rows).
    The storage itself is the subject of MatrixModel.v. *)
Record matrix := Matrix { mcols : nat; mrows : list (list num) }.
Definition nrows (m : matrix) : nat := length (mrows m).
(** operator(), lines 47-48: no check of the indices *)
Definition mat_get (m : matrix) (i j : nat) : outcome num := do r <- get (mrows m) i; get r j.
Definition mat_row (m : matrix) (i : nat) : outcome (list num) := get (mrows m) i.

(** A place in memory holding a matrix or a vector, and what a store holds there. An operand is either a place or a temporary copy. *)
Definition store (A : Type) := nat -> A.
Definition update {A} (st : store A) (p : nat) (a : A) : store A := fun q => if (q =? p)%nat then a else st q.
Inductive operand (A : Type) := Place (p : nat) | Temp (a : A).
Arguments Place {A}. Arguments Temp {A}.
Definition read {A} (st : store A) (o : operand A) : A := match o with Place p => st p | Temp a => a end.
Definition is_place {A} (o : operand A) (p : nat) : bool := match o with Place q => (q =? p)%nat | Temp _ => false end.

(** Transform(&dst, src, LinearIncrement(scale)): dst[k] + scale * src[k]; dal/utilities/algorithms.hpp and functionals.hpp:23-29 *)
Fixpoint increment (scale : num) (dst src : list num) : outcome (list num) :=
  match dst, src with
  | [], _ => Ok []
  | d :: dst', s :: src' => do r <- increment scale dst' src'; Ok (nadd d (nmul scale s) :: r)
  | _ :: _, [] => UB
  end.
(** result->Resize(r, c); result->Fill(0.0) *)
Definition zeros (r c : nat) : matrix := Matrix c (repeat (repeat zero c) r).

(** MultiplyAliasFree of matrices, dal/math/matrix/matrixarithmetic.cpp:31-40: operands are read from memory as the loop goes on *)
Fixpoint mm_inner (left right : operand matrix) (res ir jr n : nat) (st : store matrix) : outcome (store matrix) :=
  match n with
  | O => Ok st
  | S k =>
      do x <- mat_get (read st left) ir jr;
      do src <- mat_row (read st right) jr;
      do dst <- mat_row (st res) ir;
      do dst' <- increment x dst src;
      mm_inner left right res ir (S jr) k (update st res (Matrix (mcols (st res)) (set_nth (mrows (st res)) ir dst')))
  end.
Fixpoint mm_outer (left right : operand matrix) (res ir n : nat) (st : store matrix) : outcome (store matrix) :=
  match n with
  | O => Ok st
  | S k => do st' <- mm_inner left right res ir 0 (nrows (read st right)) st; mm_outer left right res (S ir) k st'
  end.
Definition mm_alias_free (left right : operand matrix) (res : nat) (st : store matrix) : outcome (store matrix) :=
  if is_place right res then Throw else
  let st0 := update st res (zeros (nrows (read st left)) (mcols (read st right))) in
  mm_outer left right res 0 (nrows (read st0 left)) st0.
(** Multiply(left, right, result), lines 59-67; the recursive calls on a copy are unfolded: after copying the left operand
    the right one may still be the result *)
Definition multiply_mm (left right res : nat) (st : store matrix) : outcome (store matrix) :=
  if negb (mcols (st left) =? nrows (st right))%nat then Throw else
  if (res =? left)%nat then
    if (res =? right)%nat then mm_alias_free (Temp (st left)) (Temp (st right)) res st
    else mm_alias_free (Temp (st left)) (Place right) res st
  else if (res =? right)%nat then mm_alias_free (Place left) (Temp (st right)) res st
  else mm_alias_free (Place left) (Place right) res st.

(** Matrix by vector, lines 42-47 and 69-75 *)
Fixpoint mv_loop (left : matrix) (right : operand (list num)) (res ir n : nat) (st : store (list num)) : outcome (store (list num)) :=
  match n with
  | O => Ok st
  | S k =>
      do row <- mat_row left ir;
      do v <- put (st res) ir (inner zero row (read st right));
      mv_loop left right res (S ir) k (update st res v)
  end.
Definition resized (v : list num) (n : nat) : list num := firstn n v ++ repeat zero (n - length v).
Definition mv_alias_free (left : matrix) (right : operand (list num)) (res : nat) (st : store (list num)) : outcome (store (list num)) :=
  if is_place right res then Throw else
  mv_loop left right res 0 (nrows left) (update st res (resized (st res) (nrows left))).
Definition multiply_mv (left : matrix) (right res : nat) (st : store (list num)) : outcome (store (list num)) :=
  if negb (mcols left =? length (st right))%nat then Throw else
  if (res =? right)%nat then mv_alias_free left (Temp (st right)) res st
  else mv_alias_free left (Place right) res st.

(** Vector by matrix, lines 49-56 and 77-83 *)
Fixpoint vm_loop (left : operand (list num)) (right : matrix) (res ir n : nat) (st : store (list num)) : outcome (store (list num)) :=
  match n with
  | O => Ok st
  | S k =>
      do x <- get (read st left) ir;
      do row <- mat_row right ir;
      do v <- increment x (st res) row;
      vm_loop left right res (S ir) k (update st res v)
  end.
Definition vm_alias_free (left : operand (list num)) (right : matrix) (res : nat) (st : store (list num)) : outcome (store (list num)) :=
  if is_place left res then Throw else
  let st0 := update st res (repeat zero (mcols right)) in
  if negb (length (read st0 left) =? nrows right)%nat then Throw else
  vm_loop left right res 0 (nrows right) st0.
Definition multiply_vm (left : nat) (right : matrix) (res : nat) (st : store (list num)) : outcome (store (list num)) :=
  if negb (length (st left) =? nrows right)%nat then Throw else
  if (res =? left)%nat then vm_alias_free (Temp (st left)) right res st
  else vm_alias_free (Place left) right res st.

(** WeightedInnerProduct, lines 85-92 *)
Fixpoint weighted_loop (left : list num) (w : matrix) (right : list num) (ir n : nat) (acc : num) : outcome num :=
  match n with
  | O => Ok acc
  | S k => do x <- get left ir; do row <- mat_row w ir;
           weighted_loop left w right (S ir) k (nadd acc (nmul x (inner zero row right)))
  end.
Definition weighted (left : list num) (w : matrix) (right : list num) : outcome num :=
  if negb (length left =? nrows w)%nat || negb (length right =? mcols w)%nat then Throw
  else weighted_loop left w right 0 (nrows w) zero.

(** AddJSquaredToUpper, lines 95-117. The two matrices are taken to be different objects. *)
Definition mat_set (m : matrix) (i j : nat) (v : num) : outcome matrix :=
  do r <- get (mrows m) i; do r' <- put r j v; Ok (Matrix (mcols m) (set_nth (mrows m) i r')).
Definition cache_size : nat := 16.
(** lines 111-113: jInner *)
Fixpoint upper_cells (a : matrix) (ii k_outer width j n : nat) (h : matrix) : outcome matrix :=
  match n with
  | O => Ok h
  | S n' =>
      do src <- mat_row a ii; do other <- mat_row a j; do old <- mat_get h ii j;
      do h' <- mat_set h ii j (inner old (firstn width (skipn k_outer src)) (skipn k_outer other));
      upper_cells a ii k_outer width (S j) n' h'
  end.
(** lines 106-114: kOuter; the fuel is the number of columns *)
Fixpoint upper_blocks (a : matrix) (ii j_outer j_stop k_outer fuel : nat) (h : matrix) : outcome matrix :=
  if (k_outer <? mcols a)%nat then
    match fuel with
    | O => OutOfFuel
    | S f =>
        do h' <- upper_cells a ii k_outer (Nat.min (mcols a - k_outer) cache_size) j_outer (j_stop - j_outer) h;
        upper_blocks a ii j_outer j_stop (k_outer + cache_size) f h'
    end
  else Ok h.
(** lines 102-115: jOuter *)
Fixpoint upper_row (a : matrix) (ii j_outer fuel : nat) (h : matrix) : outcome matrix :=
  if (j_outer <? nrows a)%nat then
    match fuel with
    | O => OutOfFuel
    | S f =>
        do h' <- upper_blocks a ii j_outer (Nat.min (nrows a) (j_outer + cache_size)) 0 (mcols a) h;
        upper_row a ii (j_outer + cache_size) f h'
    end
  else Ok h.
Fixpoint upper_rows (a : matrix) (ii n : nat) (h : matrix) : outcome matrix :=
  match n with O => Ok h | S k => do h' <- upper_row a ii ii (nrows a) h; upper_rows a (S ii) k h' end.
Definition add_j_squared (a h : matrix) : outcome matrix :=
  if negb ((nrows h =? nrows a)%nat && (mcols h =? nrows a)%nat) then Throw else upper_rows a 0 (nrows a) h.

(** Vols, lines 9-28: volatilities of a covariance matrix and, if asked for, the correlations *)
Definition vol_scale (vol x : num) : num := ndiv x (nmax epsilon vol).
Definition scale_row (m : matrix) (i : nat) (vol : num) : outcome matrix :=
  do r <- get (mrows m) i; Ok (Matrix (mcols m) (set_nth (mrows m) i (map (vol_scale vol) r))).
Fixpoint scale_col (rows : list (list num)) (i : nat) (vol : num) : outcome (list (list num)) :=
  match rows with
  | [] => Ok []
  | r :: rest => do x <- get r i; do rest' <- scale_col rest i vol; Ok (set_nth r i (vol_scale vol x) :: rest')
  end.
Fixpoint vols_loop (cov : matrix) (i n : nat) (vols : list num) (corr : matrix) : outcome (list num * matrix) :=
  match n with
  | O => Ok (vols, corr)
  | S k =>
      do v <- mat_get cov i i;
      let vol := nsqrt v in
      do vols' <- put vols i vol;
      do c <- scale_row corr i vol;
      do rows <- scale_col (mrows c) i vol;
      vols_loop cov (S i) k vols' (Matrix (mcols c) rows)
  end.
(** The version without correlations only leaves out the lines about corr. *)
Definition vols (cov : matrix) : outcome (list num * matrix) :=
  if negb (mcols cov =? nrows cov)%nat then Throw else vols_loop cov 0 (nrows cov) (repeat zero (nrows cov)) cov.
End Lin.
Arguments Place {A}. Arguments Temp {A}.
