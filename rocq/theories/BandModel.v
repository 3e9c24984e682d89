(** Model of the tridiagonal matrices of dal/math/matrix/banded.hpp and banded.cpp and of the
    one-dimensional finite-difference solver of dal/math/pde, over the real numbers. *)
From Coq Require Import Reals List Arith Bool.
From Verif Require Import Base Vec InterpModel.
Import ListNotations.
Open Scope R_scope.

(** banded.hpp:14-15 TriDiagonal_ *)
Record tri := Tri { diag : list R; above : list R; below : list R }.
(** banded.hpp:18: a new matrix; size - 1 elements for size 0 cannot be allocated *)
Definition tri_new (size : nat) : outcome tri :=
  match size with O => Throw | S k => Ok (Tri (repeat 0 size) (repeat 0 k) (repeat 0 k)) end.
(** banded.cpp:16-27 TriMultiply: one of the two loops *)
Fixpoint add_products (r x c : list R) (ri xi : nat) : outcome (list R) :=
  match c with
  | [] => Ok r
  | v :: c' => do xv <- get x xi; do rv <- get r ri; do r' <- put r ri (rv + xv * v); add_products r' x c' (S ri) (S xi)
  end.
Definition tri_multiply (x d a b : list R) : outcome (list R) :=
  if (length x =? length d)%nat then
    do r <- add_products (map (fun p => fst p * snd p) (combine x d)) x a 0 1; add_products r x b 1 0
  else Throw.
(** the same when the destination is the argument itself, as MultiplyLeft(x, &x) of the matrix permits
    (the decomposition copies first, decompositions.cpp:9-15) *)
Fixpoint add_products_aliased (r c : list R) (ri xi : nat) : outcome (list R) :=
  match c with
  | [] => Ok r
  | v :: c' => do xv <- get r xi; do rv <- get r ri; do r' <- put r ri (rv + xv * v); add_products_aliased r' c' (S ri) (S xi)
  end.
Definition tri_multiply_aliased (x d a b : list R) : outcome (list R) :=
  if (length x =? length d)%nat then
    do r <- add_products_aliased (map (fun p => fst p * snd p) (combine x d)) a 0 1; add_products_aliased r b 1 0
  else Throw.
(** banded.cpp:29-41 TridagBetaInverse, from element j on *)
Fixpoint beta_inverse (d a b : list R) (gamma : R) : outcome (list R) :=
  match d with
  | [] => UB
  | dj :: d' =>
    let beta := dj - gamma in
    if is_zero beta then Throw
    else let v := 1 / beta in
         match d' with
         | [] => Ok [v]
         | _ :: _ => match a, b with
                     | aj :: a', bj :: b' => do r <- beta_inverse d' a' b' (aj * v * bj); Ok (v :: r)
                     | _, _ => UB
                     end
         end
  end.
(** banded.cpp:53-54: the forward loop of TriSolve, from element j >= 1 on *)
Fixpoint eliminate (prev : R) (b a bi : list R) : outcome (list R) :=
  match b with
  | [] => Ok []
  | bj :: b' => match a, bi with
                | aj :: a', bij :: bi' => let v := (bj - aj * prev) * bij in do r <- eliminate v b' a' bi'; Ok (v :: r)
                | _, _ => UB
                end
  end.
(** banded.cpp:55-56: the backward loop *)
Fixpoint substitute (w bl bi : list R) : outcome (list R) :=
  match w with
  | [] => Ok []
  | v :: w' => match w' with
               | [] => Ok [v]
               | _ :: _ => match bl, bi with
                           | b0 :: bl', i0 :: bi' => do t <- substitute w' bl' bi'; Ok ((v - b0 * i0 * hd 0 t) :: t)
                           | _, _ => UB
                           end
               end
  end.
(** banded.cpp:43-57 TriSolve *)
Definition tri_solve (b d a bl bi : list R) : outcome (list R) :=
  if (length b =? length d)%nat then
    match b, bi with
    | b0 :: b', i0 :: bi' => let v := b0 * i0 in do w <- eliminate v b' a bi'; substitute (v :: w) bl bi
    | _, _ => UB
    end
  else Throw.
(** std::vector's == on doubles, banded.hpp:20 IsSymmetric *)
Fixpoint same (a b : list R) : bool :=
  match a, b with [], [] => true | x :: a', y :: b' => if Req_EM_T x y then same a' b' else false | _, _ => false end.
(** banded.cpp:59-83 TriDecomp_, :86-106 TriDecompSymm_, :322-326 Decompose *)
Inductive decomposition := Decomp (t : tri) (beta_inv : list R) | DecompSymm (d a beta_inv : list R).
Definition decompose (t : tri) : outcome decomposition :=
  if same (above t) (below t) then do bi <- beta_inverse (diag t) (above t) (above t) 0; Ok (DecompSymm (diag t) (above t) bi)
  else do bi <- beta_inverse (diag t) (above t) (below t) 0; Ok (Decomp t bi).
(** banded.cpp:316-321 MultiplyLeft, MultiplyRight of the matrix *)
Definition multiply_left (t : tri) (x : list R) := tri_multiply x (diag t) (above t) (below t).
Definition multiply_right (t : tri) (x : list R) := tri_multiply x (diag t) (below t) (above t).
(** banded.cpp:67-82, :95-102: the same of the decomposition, and the solutions; decompositions.hpp:32-46 *)
Definition d_multiply_left (c : decomposition) (x : list R) :=
  match c with Decomp t _ => tri_multiply x (diag t) (above t) (below t) | DecompSymm d a _ => tri_multiply x d a a end.
Definition d_multiply_right (c : decomposition) (x : list R) :=
  match c with Decomp t _ => tri_multiply x (diag t) (below t) (above t) | DecompSymm d a _ => tri_multiply x d a a end.
Definition solve_left (c : decomposition) (b : list R) :=
  match c with Decomp t bi => tri_solve b (diag t) (below t) (above t) bi | DecompSymm d a bi => tri_solve b d a a bi end.
Definition solve_right (c : decomposition) (b : list R) :=
  match c with Decomp t bi => tri_solve b (diag t) (above t) (below t) bi | DecompSymm d a bi => tri_solve b d a a bi end.
(** banded.cpp:108-114 TridiagAt, :309-315 operator() *)
Definition tri_at (t : tri) (i j : nat) : outcome R :=
  if (S i <? j)%nat || (S j <? i)%nat then Ok 0
  else if (i =? j)%nat then get (diag t) i else if (j <? i)%nat then get (below t) j else get (above t) i.
(** banded.hpp:24-28 Set *)
Definition tri_set (t : tri) (i j : nat) (v : R) : outcome tri :=
  if (S i <? j)%nat || (S j <? i)%nat then Throw
  else if (i =? j)%nat then do d <- put (diag t) i v; Ok (Tri d (above t) (below t))
  else if (j <? i)%nat then do b <- put (below t) j v; Ok (Tri (diag t) (above t) b)
  else do a <- put (above t) i v; Ok (Tri (diag t) a (below t)).

(** fdm1dmesher.hpp:10-25: the points, and the distances to the next and to the previous point *)
Record mesh := Mesh { locations : list R; dplus : list R; dminus : list R }.
(** finitedifference.cpp:11-30 Dx and :32-49 Dxx differ only in the three coefficients *)
Fixpoint fd_rows (coef : R -> R -> R * R * R) (x : mesh) (k i : nat) (t : tri) : outcome tri :=
  match k with
  | O => Ok t
  | S k' => do dxl <- get (dminus x) i; do dxu <- get (dplus x) i;
            let '(l, m, u) := coef dxl dxu in
            do t1 <- tri_set t i (i - 1) l; do t2 <- tri_set t1 i i m; do t3 <- tri_set t2 i (S i) u;
            fd_rows coef x k' (S i) t3
  end.
Definition fd_operator (coef : R -> R -> R * R * R) (x : mesh) : outcome tri :=
  let n := length (locations x) in
  if (2 <? n)%nat then
    do t <- tri_new n; do t0 <- tri_set t 0 0 0; do t1 <- fd_rows coef x (n - 2) 1 t0; tri_set t1 (n - 1) (n - 1) 0
  else Throw.
(** finitedifference.cpp:20-26 *)
Definition dx_coef (dxl dxu : R) : R * R * R := let dxm := dxl + dxu in (- dxu / dxl / dxm, (dxu / dxl - dxl / dxu) / dxm, dxl / dxu / dxm).
(** finitedifference.cpp:39-46 *)
Definition dxx_coef (dxl dxu : R) : R * R * R := let dxm := 1 / 2 * (dxl + dxu) in (1 / dxl / dxm, - (1 / dxl + 1 / dxu) / dxm, 1 / dxu / dxm).
Definition dx_op := fd_operator dx_coef.
Definition dxx_op := fd_operator dxx_coef.

(** fd1d.hpp:14-43 FD1D_: the coefficients and the three matrices *)
Record fd := Fd { rate : list R; mu : list R; var : list R; fdx : tri; fdxx : tri; amat : tri }.
(** fd1d.cpp:14-21 Init *)
Definition fd_init (x : mesh) (r m v : list R) : outcome fd :=
  do d <- dx_op x; do dd <- dxx_op x; do a <- tri_new (length (diag d)); Ok (Fd r m v d dd a).
(** fd1d.cpp:23-35 CalcAx, rows i, i+1, ... *)
Fixpoint calc_rows (f : fd) (one dt_theta : R) (k i : nat) (a : tri) : outcome tri :=
  match k with
  | O => Ok a
  | S k' =>
    let n := length (diag (fdx f)) in
    do a' <- (if negb (i =? 0)%nat && negb (i =? n - 1)%nat then
      do m <- get (mu f) i; do v <- get (var f) i; do r <- get (rate f) i;
      do d1 <- tri_at (fdx f) i (i - 1); do dd1 <- tri_at (fdxx f) i (i - 1);
      do a1 <- tri_set a i (i - 1) (dt_theta * (m * d1 + 1 / 2 * v * dd1));
      do d2 <- tri_at (fdx f) i (S i); do dd2 <- tri_at (fdxx f) i (S i);
      do a2 <- tri_set a1 i (S i) (dt_theta * (m * d2 + 1 / 2 * v * dd2));
      do d3 <- tri_at (fdx f) i i; do dd3 <- tri_at (fdxx f) i i;
      tri_set a2 i i (dt_theta * (m * d3 + 1 / 2 * v * dd3) + one - dt_theta * r)
     else tri_set a i i 1);
    calc_rows f one dt_theta k' (S i) a'
  end.
Definition with_a (f : fd) (a : tri) : fd := Fd (rate f) (mu f) (var f) (fdx f) (fdxx f) a.
Definition calc_ax (f : fd) (one dt_theta : R) : outcome fd :=
  do a <- calc_rows f one dt_theta (length (diag (fdx f))) 0 (amat f); Ok (with_a f a).
(** fd1d.cpp:37-50 RollBwd: the solver afterwards and the new values *)
Definition roll_bwd (f : fd) (dt theta : R) (res : list R) : outcome (fd * list R) :=
  do (f1, mid) <- (if Req_EM_T theta 1 then Ok (f, res)
                   else do f1 <- calc_ax f 1 (dt * (1 - theta)); do y <- multiply_left (amat f1) res; Ok (f1, y));
  if Req_EM_T theta 0 then Ok (f1, mid)
  else do f2 <- calc_ax f1 1 (- dt * theta); do c <- decompose (amat f2); do y <- solve_left c mid; Ok (f2, y).
